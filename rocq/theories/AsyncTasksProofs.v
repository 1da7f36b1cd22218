From Verif Require Import Prelude Table AsyncTasks AsyncTasksSpec.
From Coq Require Import Sorted.
Open Scope N_scope.
Ltac Zify.zify_post_hook ::= Z.div_mod_to_equations.

(** ** The ordered queue *)

Lemma before_spec a b : before a b = true <-> time a < time b \/ (time a = time b /\ tid a < tid b).
Proof. unfold before. lia. Qed.
Lemma before_trans a b c : before a b = true -> before b c = true -> before a c = true.
Proof. rewrite !before_spec. lia. Qed.
Lemma equivalent_spec a b : equivalent a b = true <-> time a = time b /\ tid a = tid b.
Proof. unfold equivalent, before. lia. Qed.

Definition sorted (q : list task) := StronglySorted (fun a b => before a b = true) q.

Lemma q_insert_in t q x : (forall y, In y q -> tid y <> tid t) ->
  (In x (q_insert t q) <-> x = t \/ In x q).
Proof.
  induction q as [|y q IH]; intros H; cbn; [intuition|].
  assert (Hy : tid y <> tid t) by (apply H; now left).
  destruct (before t y) eqn:E1; [cbn; intuition|].
  destruct (before y t) eqn:E2.
  - cbn. rewrite IH by (intros; apply H; now right). intuition.
  - unfold before in *. lia.
Qed.

Lemma q_insert_sorted t q : (forall y, In y q -> tid y <> tid t) -> sorted q -> sorted (q_insert t q).
Proof.
  unfold sorted. induction q as [|y q IH]; intros H S; cbn; [repeat constructor|].
  inversion S as [|? ? S1 S2]; subst.
  destruct (before t y) eqn:E1.
  - constructor; [exact S|]. constructor; [exact E1|].
    eapply Forall_impl; [|exact S2]. intros z. now apply before_trans.
  - destruct (before y t) eqn:E2.
    + constructor; [apply IH; auto; intros; apply H; now right|].
      apply Forall_forall. intros z Hz. apply q_insert_in in Hz; [|intros; apply H; now right].
      destruct Hz as [->|Hz]; [exact E2|]. eapply Forall_forall in S2; [exact S2|exact Hz].
    + assert (tid y <> tid t) by (apply H; now left). unfold before in *. lia.
Qed.

Lemma q_erase_in t q x : In x (q_erase t q) <-> In x q /\ ~ (time x = time t /\ tid x = tid t).
Proof.
  unfold q_erase. rewrite filter_In, negb_true_iff, <- equivalent_spec.
  destruct (equivalent x t); intuition discriminate.
Qed.

Lemma q_erase_sorted t q : sorted q -> sorted (q_erase t q).
Proof.
  unfold sorted, q_erase. induction 1 as [|y q S IH F]; cbn; [constructor|].
  destruct (negb (equivalent y t)); [|exact IH]. constructor; [exact IH|].
  apply Forall_forall. intros z Hz. apply filter_In in Hz as [Hz _].
  eapply Forall_forall in F; [exact F|exact Hz].
Qed.

(** ** Identifier allocation *)

Section Search.
Variable M : N.
Hypothesis HM : 0 < M.
Definition nxt (id : N) : N := if id =? M then 1 else id + 1.
Fixpoint srch (m : table task) (fuel : nat) (last : N) : option N :=
  match fuel with
  | O => None
  | S f => let n := nxt last in if has m n then srch m f n else Some n
  end.
Definition visit (last : N) (k : nat) : N := 1 + (last + N.of_nat k) mod M.

Lemma visit_0 last : last <= M -> visit last 0 = nxt last.
Proof.
  unfold visit, nxt. intros H. replace (last + N.of_nat 0) with last by lia.
  destruct (N.eqb_spec last M) as [E|E].
  - subst. rewrite N.mod_same by lia. reflexivity.
  - rewrite N.mod_small by lia. lia.
Qed.
Lemma visit_S last k : last <= M -> visit last (S k) = visit (nxt last) k.
Proof.
  unfold visit, nxt. intros H. destruct (N.eqb_spec last M) as [E|E].
  - subst. replace (M + N.of_nat (S k)) with (1 + N.of_nat k + 1 * M) by lia.
    now rewrite N.mod_add by lia.
  - f_equal. f_equal. lia.
Qed.
Lemma nxt_range last : last <= M -> 1 <= nxt last <= M.
Proof. unfold nxt. destruct (N.eqb_spec last M); lia. Qed.

Lemma srch_sound m f : forall last id, last <= M -> srch m f last = Some id ->
  1 <= id <= M /\ ~ In id (keys m).
Proof.
  induction f as [|f IH]; intros last id H; cbn; [discriminate|].
  pose proof (nxt_range last H). destruct (has m (nxt last)) eqn:E.
  - intros K. apply (IH (nxt last)) in K; [exact K|lia].
  - intros [= <-]. apply has_false in E. auto.
Qed.

Lemma srch_none m f : forall last, last <= M -> srch m f last = None ->
  forall k, (k < f)%nat -> In (visit last k) (keys m).
Proof.
  induction f as [|f IH]; intros last H; [lia|]. cbn.
  pose proof (nxt_range last H). destruct (has m (nxt last)) eqn:E; [|discriminate].
  intros K [|k] Hk.
  - rewrite visit_0 by exact H. now apply has_spec.
  - rewrite visit_S by exact H. apply IH; [lia|exact K|lia].
Qed.

Lemma visit_inj last j k : N.of_nat j < M -> N.of_nat k < M -> visit last j = visit last k -> j = k.
Proof.
  unfold visit. intros Hj Hk E. assert (E2 : (last + N.of_nat j) mod M = (last + N.of_nat k) mod M) by lia.
  pose proof (N.div_mod (last + N.of_nat j) M ltac:(lia)).
  pose proof (N.div_mod (last + N.of_nat k) M ltac:(lia)).
  rewrite E2 in H. set (a := (last + N.of_nat j) / M) in *. set (b := (last + N.of_nat k) / M) in *.
  assert (a = b) by nia. subst a. rewrite H1 in *. lia.
Qed.

Lemma srch_complete m last : last <= M -> lenN m < M -> srch m (S (length m)) last <> None.
Proof.
  intros H L E. pose proof (srch_none _ _ _ H E) as K.
  assert (ND : NoDup (map (visit last) (seq 0 (S (length m))))).
  { assert (G : forall n st, (st + n <= S (length m))%nat -> NoDup (map (visit last) (seq st n))).
    { induction n as [|n IH]; intros st Hs; cbn; constructor.
      - rewrite in_map_iff. intros (j & E1 & E2). apply in_seq in E2.
        apply visit_inj in E1; unfold lenN in L; lia.
      - apply IH. lia. }
    apply G. lia. }
  assert (I : incl (map (visit last) (seq 0 (S (length m)))) (keys m)).
  { intros x Hx. apply in_map_iff in Hx as (j & <- & Hj). apply in_seq in Hj. apply K. lia. }
  pose proof (NoDup_incl_length ND I) as LL.
  rewrite map_length, seq_length in LL. unfold keys in LL. rewrite map_length in LL. lia.
Qed.
End Search.

Lemma search_srch m f : forall last, search m f last = srch 65535 m f last.
Proof. induction f as [|f IH]; intros last; [reflexivity|]. cbn [search srch]. now rewrite IH. Qed.

(** ** The invariant *)

Record Inv (s : sched) : Prop := {
  i_nodup : NoDup (keys (by_id s));
  i_tid : forall id t, lookup (by_id s) id = Some t -> tid t = id /\ 1 <= id <= 65535 /\ ser t < next_ser s;
  i_ser : forall id id' t t', lookup (by_id s) id = Some t -> lookup (by_id s) id' = Some t' ->
    ser t = ser t' -> id = id';
  i_queue : forall t, In t (queue s) <-> pending s t;
  i_sorted : sorted (queue s);
  i_last : last_id s <= 65535;
  i_user : forall id t, lookup (by_id s) id = Some t -> In id (ids_of (by_user s) (user t));
}.

Lemma inv_init : Inv init.
Proof.
  constructor; cbn; try discriminate; try lia.
  - constructor.
  - intros t. unfold pending. cbn. split; [tauto|discriminate].
  - constructor.
Qed.

Lemma ids_of_put m u l v : ids_of (put m u l) v = if v =? u then l else ids_of m v.
Proof. unfold ids_of. rewrite lookup_put. now destruct (v =? u). Qed.

Lemma inv_schedule s u t p c s' id : Inv s -> schedule s u t p c = Some (s', id) ->
  Inv s' /\ (id = 0 -> s' = s /\ pending_count s = 65535) /\
  (id <> 0 -> pending_count s < 65535 /\ ~ In id (keys (by_id s)) /\ 1 <= id <= 65535 /\
    by_id s' = put (by_id s) id {| ser := next_ser s; tid := id; time := t; period := p; user := u; cb := c |} /\
    next_ser s' = next_ser s + 1 /\
    by_user s' = put (by_user s) u (set_insert id (ids_of (by_user s) u)) /\ last_id s' = id).
Proof.
  intros I. unfold schedule, pending_count. destruct (N.eqb_spec (lenN (by_id s)) 65535) as [E|E].
  { intros [= <- <-]. split; [exact I|]. split; [auto|congruence]. }
  destruct (search _ _ _) as [n|] eqn:S; [|discriminate]. intros [= <- <-].
  rewrite search_srch in S. apply srch_sound in S as [R Fr]; [|lia|apply I].
  set (tk := {| ser := next_ser s; tid := n; time := t; period := p; user := u; cb := c |}).
  assert (Cnt : lenN (by_id s) < 65535).
  { assert (L : (length (keys (by_id s)) <= N.to_nat 65535)%nat).
    { set (R' := map (fun k => 1 + N.of_nat k) (seq 0 (N.to_nat 65535))).
      assert (HR : length R' = N.to_nat 65535) by (unfold R'; now rewrite map_length, seq_length).
      rewrite <- HR. apply NoDup_incl_length; [apply I|]. intros x Hx. apply in_lookup in Hx as [d Hx].
      apply (i_tid s I) in Hx as (_ & Hx & _). unfold R'. apply in_map_iff. exists (N.to_nat (x - 1)).
      split; [lia|]. apply in_seq. lia. }
    unfold keys in L. rewrite map_length in L. unfold lenN in *. lia. }
  split; [|split; [lia|intros _; repeat split; auto; lia]].
  assert (Fresh : forall y, In y (queue s) -> tid y <> n).
  { intros y Hy K. apply (i_queue s I) in Hy. unfold pending in Hy. apply lookup_in in Hy.
    congruence. }
  constructor; cbn [by_id queue last_id next_ser by_user].
  - apply nodup_put, I.
  - intros id' t'. rewrite lookup_put. destruct (N.eqb_spec id' n) as [E2|E2].
    + intros [= <-]. subst id'. cbn. lia.
    + intros K. apply (i_tid s I) in K. lia.
  - intros a b ta tb. rewrite !lookup_put.
    destruct (N.eqb_spec a n) as [Ea|Ea], (N.eqb_spec b n) as [Eb|Eb].
    + congruence.
    + intros [= <-] K. apply (i_tid s I) in K. cbn. lia.
    + intros K [= <-]. apply (i_tid s I) in K. cbn. lia.
    + apply (i_ser s I).
  - intros t'. unfold pending. cbn [by_id]. rewrite q_insert_in by exact Fresh. rewrite lookup_put.
    destruct (N.eqb_spec (tid t') n) as [E2|E2].
    + split.
      * intros [->|H]; [reflexivity|]. now apply Fresh in H.
      * intros [= <-]. now left.
    + rewrite (i_queue s I). unfold pending. split; [|auto]. intros [->|H]; [cbn in E2; lia|exact H].
  - apply q_insert_sorted; [exact Fresh|apply I].
  - lia.
  - intros id' t'. rewrite lookup_put, ids_of_put. destruct (N.eqb_spec id' n) as [E2|E2].
    + intros [= <-]. subst. cbn [user tk]. rewrite N.eqb_refl. apply in_set_insert. auto.
    + intros K. apply (i_user s I) in K. destruct (N.eqb_spec (user t') u) as [E3|E3]; [|exact K].
      apply in_set_insert. right. now rewrite <- E3.
Qed.

Lemma schedule_total s u t p c : Inv s -> schedule s u t p c <> None.
Proof.
  intros I. unfold schedule. destruct (N.eqb_spec (lenN (by_id s)) 65535) as [E|E]; [discriminate|].
  destruct (search _ _ _) as [n|] eqn:S; [discriminate|]. rewrite search_srch in S.
  exfalso. revert S. apply srch_complete; [lia|apply I|].
  assert (L : (length (keys (by_id s)) <= N.to_nat 65535)%nat).
  { set (R' := map (fun k => 1 + N.of_nat k) (seq 0 (N.to_nat 65535))).
    assert (HR : length R' = N.to_nat 65535) by (unfold R'; now rewrite map_length, seq_length).
    rewrite <- HR. apply NoDup_incl_length; [apply I|]. intros x Hx. apply in_lookup in Hx as [d Hx].
    apply (i_tid s I) in Hx as (_ & Hx & _). unfold R'. apply in_map_iff. exists (N.to_nat (x - 1)).
    split; [lia|]. apply in_seq. lia. }
  unfold keys in L. rewrite map_length in L. unfold lenN in *. lia.
Qed.

Lemma inv_cancel s id : Inv s -> Inv (fst (cancel s id)).
Proof.
  intros I. unfold cancel. destruct (lookup (by_id s) id) as [t|] eqn:E; [|exact I].
  pose proof (i_tid s I _ _ E) as (Et & _). cbn [fst].
  constructor; cbn [by_id queue last_id next_ser by_user].
  - apply nodup_erase, I.
  - intros a ta. rewrite lookup_erase. destruct (a =? id); [discriminate|apply I].
  - intros a b ta tb. rewrite !lookup_erase.
    destruct (a =? id); [discriminate|]. destruct (b =? id); [discriminate|]. apply I.
  - intros x. unfold pending. cbn [by_id]. rewrite q_erase_in, lookup_erase, (i_queue s I).
    unfold pending. destruct (N.eqb_spec (tid x) id) as [E2|E2].
    + split; [|discriminate]. intros [H1 H2]. exfalso. apply H2. rewrite E2, E in H1. injection H1 as ->. auto.
    + split; [tauto|]. intros H. split; [exact H|]. lia.
  - apply q_erase_sorted, I.
  - apply I.
  - intros a ta. rewrite lookup_erase. destruct (a =? id); [discriminate|apply I].
Qed.

(** Cancelling a list of identifiers *)
Definition cancel_all (ids : list N) (s : sched) : sched := fold_left (fun s id => fst (cancel s id)) ids s.

Lemma cancel_lookup s id k : lookup (by_id (fst (cancel s id))) k = if k =? id then None else lookup (by_id s) k.
Proof.
  unfold cancel. destruct (lookup (by_id s) id) as [t|] eqn:E; cbn [fst by_id].
  - apply lookup_erase.
  - destruct (N.eqb_spec k id) as [->|]; [exact E|reflexivity].
Qed.
Lemma cancel_by_user s id : by_user (fst (cancel s id)) = by_user s.
Proof. unfold cancel. now destruct (lookup (by_id s) id). Qed.
Lemma cancel_next_ser s id : next_ser (fst (cancel s id)) = next_ser s /\ last_id (fst (cancel s id)) = last_id s.
Proof. unfold cancel. now destruct (lookup (by_id s) id). Qed.

Lemma inv_cancel_all ids : forall s, Inv s -> Inv (cancel_all ids s).
Proof.
  induction ids as [|id ids IH]; intros s I; [exact I|]. cbn. apply IH. now apply inv_cancel.
Qed.
Lemma cancel_all_lookup ids : forall s k, lookup (by_id (cancel_all ids s)) k =
  if mem k ids then None else lookup (by_id s) k.
Proof.
  induction ids as [|id ids IH]; intros s k; [reflexivity|]. cbn [cancel_all fold_left].
  fold (cancel_all ids (fst (cancel s id))). rewrite IH, cancel_lookup.
  unfold mem. cbn [existsb]. destruct (k =? id); cbn [orb]; [now destruct (existsb _ ids)|reflexivity].
Qed.
Lemma cancel_all_by_user ids : forall s, by_user (cancel_all ids s) = by_user s.
Proof.
  induction ids as [|id ids IH]; intros s; [reflexivity|]. cbn [cancel_all fold_left].
  fold (cancel_all ids (fst (cancel s id))). now rewrite IH, cancel_by_user.
Qed.
Lemma cancel_all_next_ser ids : forall s, next_ser (cancel_all ids s) = next_ser s /\
  last_id (cancel_all ids s) = last_id s.
Proof.
  induction ids as [|id ids IH]; intros s; [auto|]. cbn [cancel_all fold_left].
  fold (cancel_all ids (fst (cancel s id))). rewrite (proj1 (IH _)), (proj2 (IH _)). apply cancel_next_ser.
Qed.

Lemma cancel_user_lookup s u k : lookup (by_id (fst (cancel_user s u))) k =
  if mem k (ids_of (by_user s) u) then None else lookup (by_id s) k.
Proof.
  unfold cancel_user, ids_of. destruct (lookup (by_user s) u) as [ids|] eqn:E; [|reflexivity].
  cbn [fst by_id]. apply cancel_all_lookup.
Qed.

Lemma inv_cancel_user s u : Inv s -> Inv (fst (cancel_user s u)).
Proof.
  intros I. unfold cancel_user. destruct (lookup (by_user s) u) as [ids|] eqn:E; [|exact I].
  fold (cancel_all ids s). pose proof (inv_cancel_all ids s I) as I'. cbn [fst].
  constructor; cbn [by_id queue last_id next_ser by_user]; try apply I'.
  - intros id t H. pose proof (i_user _ I' _ _ H) as K.
    rewrite cancel_all_by_user in *. unfold ids_of in *. rewrite lookup_erase.
    destruct (N.eqb_spec (user t) u) as [E2|E2]; [|exact K].
    rewrite cancel_all_lookup in H. destruct (mem id ids) eqn:E3; [discriminate|].
    apply mem_false in E3. rewrite E2, E in K. tauto.
Qed.

Lemma queue_head s t q : Inv s -> queue s = t :: q ->
  pending s t /\ forall x, pending s x -> x = t \/ before t x = true.
Proof.
  intros I E. split; [apply (i_queue s I); rewrite E; now left|].
  intros x Hx. apply (i_queue s I) in Hx. rewrite E in Hx. destruct Hx as [->|Hx]; [now left|right].
  pose proof (i_sorted s I) as S. rewrite E in S. inversion S as [|? ? _ F]; subst.
  eapply Forall_forall in F; [exact F|exact Hx].
Qed.

Lemma inv_pick s now : Inv s -> Inv (fst (pick s now)).
Proof.
  intros I. unfold pick. destruct (queue s) as [|t q] eqn:Eq; [exact I|].
  destruct (time t <? now); [|exact I].
  destruct (queue_head s t q I Eq) as [P _]. unfold pending in P.
  pose proof (i_tid s I _ _ P) as (_ & Rg & Sr). rewrite <- Eq.
  destruct (period t) as [p|] eqn:Ep; cbn [fst].
  - set (t' := {| ser := ser t; tid := tid t; time := time t + p; period := Some p;
                  user := user t; cb := cb t |}).
    assert (Fresh : forall y, In y (q_erase t (queue s)) -> tid y <> tid t).
    { intros y Hy K. apply q_erase_in in Hy as [Hy N]. apply (i_queue s I) in Hy.
      unfold pending in Hy. rewrite K, P in Hy. injection Hy as <-. apply N. auto. }
    constructor; cbn [by_id queue last_id next_ser by_user].
    + apply nodup_put, I.
    + intros a ta. rewrite lookup_put. destruct (N.eqb_spec a (tid t)) as [E|E].
      * intros [= <-]. subst a. cbn. auto.
      * apply I.
    + intros a b ta tb. rewrite !lookup_put.
      destruct (N.eqb_spec a (tid t)) as [Ea|Ea], (N.eqb_spec b (tid t)) as [Eb|Eb].
      * congruence.
      * intros [= <-] K S. cbn in S. subst a. now apply (i_ser s I (tid t) b t tb).
      * intros K [= <-] S. cbn in S. subst b. now apply (i_ser s I a (tid t) ta t).
      * apply I.
    + intros x. unfold pending. cbn [by_id]. rewrite (q_insert_in t') by exact Fresh.
      rewrite lookup_put, q_erase_in, (i_queue s I). unfold pending.
      destruct (N.eqb_spec (tid x) (tid t)) as [E|E].
      * split; [|intros [= <-]; now left].
        intros [->|[H N]]; [reflexivity|]. rewrite E, P in H. injection H as <-. exfalso. apply N. auto.
      * split; [|intros H; right; split; [exact H|lia]].
        intros [->|[H _]]; [cbn in E; lia|exact H].
    + apply q_insert_sorted; [exact Fresh|apply q_erase_sorted, I].
    + apply I.
    + intros a ta. rewrite lookup_put. destruct (N.eqb_spec a (tid t)) as [E|E]; [|apply I].
      intros [= <-]. subst a. cbn. now apply (i_user s I) in P.
  - constructor; cbn [by_id queue last_id next_ser by_user].
    + apply nodup_erase, I.
    + intros a ta. rewrite lookup_erase. destruct (a =? tid t); [discriminate|apply I].
    + intros a b ta tb. rewrite !lookup_erase.
      destruct (a =? tid t); [discriminate|]. destruct (b =? tid t); [discriminate|]. apply I.
    + intros x. unfold pending. cbn [by_id]. rewrite q_erase_in, lookup_erase, (i_queue s I).
      unfold pending. destruct (N.eqb_spec (tid x) (tid t)) as [E|E].
      * split; [|discriminate]. intros [H1 H2]. exfalso. apply H2. rewrite E, P in H1. injection H1 as ->. auto.
      * split; [tauto|]. intros H. split; [exact H|]. lia.
    + apply q_erase_sorted, I.
    + apply I.
    + intros a ta. rewrite lookup_erase, ids_of_put. destruct (N.eqb_spec a (tid t)) as [E|E]; [discriminate|].
      intros K. apply (i_user s I) in K. destruct (N.eqb_spec (user ta) (user t)) as [E2|E2]; [|exact K].
      apply in_set_erase. split; [now rewrite <- E2|exact E].
Qed.

Lemma inv_stop s : Inv s -> Inv (stop s).
Proof.
  intros I. constructor; cbn; try discriminate; try apply I.
  - constructor.
  - intros t. unfold pending. cbn. split; [tauto|discriminate].
  - constructor.
Qed.

Lemma inv_step s o s' r : Inv s -> step s o = Some (s', r) -> Inv s'.
Proof.
  intros I. destruct o; cbn [step].
  - destruct (schedule s u t p c) as [[s1 id]|] eqn:E; [|discriminate]. intros [= <- <-].
    now apply inv_schedule in E.
  - destruct (cancel s id) as [s1 b] eqn:E. intros [= <- <-].
    change s1 with (fst (s1, b)). rewrite <- E. now apply inv_cancel.
  - destruct (cancel_user s u) as [s1 b] eqn:E. intros [= <- <-].
    change s1 with (fst (s1, b)). rewrite <- E. now apply inv_cancel_user.
  - destruct (pick s now) as [s1 b] eqn:E. intros [= <- <-].
    change s1 with (fst (s1, b)). rewrite <- E. now apply inv_pick.
  - intros [= <- <-]. now apply inv_stop.
Qed.

Lemma inv_run ops : forall s s' rs, Inv s -> run s ops = Some (s', rs) -> Inv s'.
Proof.
  induction ops as [|o ops IH]; intros s s' rs I; cbn; [intros [= <- <-]; exact I|].
  destruct (step s o) as [[s1 r]|] eqn:E; [|discriminate].
  destruct (run s1 ops) as [[s2 rs']|] eqn:E2; [|discriminate]. intros [= <- <-].
  eapply IH; [|exact E2]. eapply inv_step; eassumption.
Qed.

Lemma reachable_inv s : reachable s -> Inv s.
Proof. intros (ops & rs & H). eapply inv_run; [apply inv_init|exact H]. Qed.

(** ** C14 *)

Lemma step_total s o : reachable s -> step s o <> None.
Proof.
  intros R. apply reachable_inv in R. destruct o; cbn; try discriminate.
  - pose proof (schedule_total s u t p c R). destruct (schedule s u t p c) as [[? ?]|]; [discriminate|congruence].
  - now destruct (cancel s id).
  - now destruct (cancel_user s u).
  - now destruct (pick s now).
Qed.

Lemma schedule_unique s u t p c s' id : reachable s -> step s (Schedule u t p c) = Some (s', RId id) ->
  (id = 0 <-> pending_count s = 65535) /\
  (id <> 0 -> 1 <= id <= 65535 /\ (forall x, pending s x -> tid x <> id) /\
    exists x, pending s' x /\ tid x = id /\ time x = t /\ period x = p /\ user x = u /\ cb x = c /\
    (forall y, pending s' y <-> y = x \/ pending s y)) /\
  (id = 0 -> s' = s).
Proof.
  intros R E. apply reachable_inv in R. cbn in E.
  destruct (schedule s u t p c) as [[s1 n]|] eqn:S; [|discriminate]. injection E as <- <-.
  pose proof (inv_schedule _ _ _ _ _ _ _ R S) as (I' & Z & NZ).
  split; [|split].
  - split; [intros ->; now apply Z|]. intros K. destruct (N.eq_dec n 0) as [|K2]; [auto|].
    apply NZ in K2. lia.
  - intros K. destruct (NZ K) as (L & Fr & Rg & B & _). split; [exact Rg|]. split.
    + intros x Hx Ex. unfold pending in Hx. rewrite Ex in Hx. apply lookup_in in Hx. tauto.
    + exists {| ser := next_ser s; tid := n; time := t; period := p; user := u; cb := c |}.
      unfold pending. rewrite !B. split; [cbn [tid]; rewrite lookup_put, N.eqb_refl; reflexivity|].
      do 5 (split; [reflexivity|]). intros y. rewrite lookup_put.
      destruct (N.eqb_spec (tid y) n) as [E|E].
      * split; [intros [= <-]; now left|]. intros [->|H]; [reflexivity|]. rewrite E in H.
        apply lookup_in in H. tauto.
      * split; [auto|]. intros [->|H]; [cbn in E; congruence|exact H].
  - intros ->. now apply Z.
Qed.

Lemma pick_some s now s' t : reachable s -> step s (Pick now) = Some (s', RTask (Some t)) ->
  pending s t /\ time t < now /\
  (forall x, pending s x -> x = t \/ time t < time x \/ (time t = time x /\ tid t < tid x)).
Proof.
  intros R E. apply reachable_inv in R. cbn in E.
  destruct (pick s now) as [s1 o] eqn:P. injection E as <- ->.
  unfold pick in P. destruct (queue s) as [|t0 q] eqn:Q; [discriminate|].
  destruct (N.ltb_spec (time t0) now) as [L|L]; [|discriminate].
  assert (t0 = t) by (destruct (period t0); congruence). subst t0.
  destruct (queue_head s t q R Q) as [H1 H2]. split; [exact H1|]. split; [exact L|].
  intros x Hx. destruct (H2 x Hx) as [->|K]; [auto|]. apply before_spec in K. auto.
Qed.

Lemma pick_none s now s' : reachable s -> step s (Pick now) = Some (s', RTask None) ->
  s' = s /\ forall x, pending s x -> now <= time x.
Proof.
  intros R E. apply reachable_inv in R. cbn in E.
  destruct (pick s now) as [s1 o] eqn:P. injection E as <- ->.
  unfold pick in P. destruct (queue s) as [|t0 q] eqn:Q.
  - injection P as <-. split; [reflexivity|]. intros x Hx. apply (i_queue s R) in Hx. rewrite Q in Hx. destruct Hx.
  - destruct (N.ltb_spec (time t0) now) as [L|L]; [destruct (period t0); discriminate|].
    injection P as <-. split; [reflexivity|]. intros x Hx.
    destruct (queue_head s t0 q R Q) as [_ H2]. destruct (H2 x Hx) as [->|K]; [exact L|].
    apply before_spec in K. lia.
Qed.

(** What an operation does to the set of pending tasks *)
Lemma pick_effect s now s' t : Inv s -> pick s now = (s', Some t) ->
  pending s t /\ next_ser s' = next_ser s /\
  (forall id, lookup (by_id s') id = if id =? tid t then
     match period t with
     | Some p => Some {| ser := ser t; tid := tid t; time := time t + p; period := Some p;
                         user := user t; cb := cb t |}
     | None => None end
   else lookup (by_id s) id).
Proof.
  intros I P. unfold pick in P. destruct (queue s) as [|t0 q] eqn:Q; [discriminate|].
  destruct (N.ltb_spec (time t0) now) as [L|L]; [|discriminate].
  assert (t0 = t) by (destruct (period t0); congruence). subst t0.
  destruct (queue_head s t q I Q) as [H1 H2]. split; [exact H1|].
  destruct (period t) as [p|]; injection P as <-; cbn [next_ser by_id]; (split; [reflexivity|]); intros id.
  - apply lookup_put.
  - apply lookup_erase.
Qed.

(** Serial numbers: one that is not pending never becomes pending again. *)
Definition dead (s : sched) (n : N) : Prop :=
  n < next_ser s /\ forall id t, lookup (by_id s) id = Some t -> ser t <> n.

Lemma dead_step s o s' r n : Inv s -> step s o = Some (s', r) -> dead s n ->
  dead s' n /\ forall t, In t (ran r) -> ser t <> n.
Proof.
  intros I E [D1 D2]. destruct o; cbn [step] in E.
  - destruct (schedule s u t p c) as [[s1 id]|] eqn:S; [|discriminate]. injection E as <- <-.
    split; [|intros ? []]. destruct (inv_schedule _ _ _ _ _ _ _ I S) as (_ & Z & NZ).
    destruct (N.eq_dec id 0) as [E0|E0]; [apply Z in E0 as [-> _]; now split|].
    destruct (NZ E0) as (_ & _ & _ & B & Ns & _). split; [lia|]. intros a ta. rewrite B, lookup_put.
    destruct (a =? id); [intros [= <-]; cbn; lia|apply D2].
  - destruct (cancel s id) as [s1 b] eqn:C. injection E as <- <-. split; [|intros ? []].
    change s1 with (fst (s1, b)). rewrite <- C. split.
    + now rewrite (proj1 (cancel_next_ser s id)).
    + intros a ta. rewrite cancel_lookup. destruct (a =? id); [discriminate|apply D2].
  - destruct (cancel_user s u) as [s1 b] eqn:C. injection E as <- <-. split; [|intros ? []].
    change s1 with (fst (s1, b)). rewrite <- C. split.
    + unfold cancel_user. destruct (lookup (by_user s) u) as [ids|]; [|exact D1]. cbn [fst next_ser].
      fold (cancel_all ids s). now rewrite (proj1 (cancel_all_next_ser ids s)).
    + intros a ta. rewrite cancel_user_lookup. destruct (mem _ _); [discriminate|apply D2].
  - destruct (pick s now) as [s1 [t|]] eqn:P; injection E as <- <-.
    + destruct (pick_effect _ _ _ _ I P) as (H1 & H2 & H3). split.
      * split; [lia|]. intros a ta. rewrite H3. destruct (a =? tid t); [|apply D2].
        destruct (period t); [|discriminate]. intros [= <-]. cbn. now apply D2 in H1.
      * intros x [<-|[]]. now apply D2 in H1.
    + unfold pick in P. destruct (queue s) as [|t0 q]; [injection P as <-; now repeat split|].
      destruct (time t0 <? now); [destruct (period t0); discriminate|]. injection P as <-.
      split; [now split|intros ? []].
  - injection E as <- <-. split; [|intros ? []]. split; [exact D1|]. cbn. discriminate.
Qed.

Lemma dead_run ops : forall s s' rs n, Inv s -> run s ops = Some (s', rs) -> dead s n ->
  dead s' n /\ forall t, In t (flat_map ran rs) -> ser t <> n.
Proof.
  induction ops as [|o ops IH]; intros s s' rs n I; cbn.
  { intros [= <- <-] D. split; [exact D|intros ? []]. }
  destruct (step s o) as [[s1 r]|] eqn:E; [|discriminate].
  destruct (run s1 ops) as [[s2 rs']|] eqn:E2; [|discriminate]. intros [= <- <-] D.
  destruct (dead_step _ _ _ _ _ I E D) as [D1 R1].
  destruct (IH _ _ _ n (inv_step _ _ _ _ I E) E2 D1) as [D2 R2]. split; [exact D2|].
  intros t. cbn. rewrite in_app_iff. intros [H|H]; auto.
Qed.

Lemma cancelled_never_runs s id t s1 ops s2 rs : reachable s ->
  pending s t -> tid t = id ->
  step s (Cancel id) = Some (s1, RBool true) -> run s1 ops = Some (s2, rs) ->
  forall x, In x (flat_map ran rs) -> ser x <> ser t.
Proof.
  intros R P T E E2. pose proof (reachable_inv _ R) as I.
  assert (D : dead s1 (ser t)).
  { cbn in E. destruct (cancel s id) as [s1' b] eqn:C. injection E as <- _.
    unfold pending in P. rewrite T in P. pose proof (i_tid s I _ _ P) as (_ & _ & L).
    replace s1' with (fst (cancel s id)) by now rewrite C. split.
    - now rewrite (proj1 (cancel_next_ser s id)).
    - intros a ta. rewrite cancel_lookup. destruct (N.eqb_spec a id) as [|N]; [discriminate|].
      intros K Q. apply N. eapply (i_ser s I); eassumption. }
  eapply dead_run; [|exact E2|exact D]. eapply inv_step; eassumption.
Qed.

Lemma cancel_returns s id s' b : reachable s -> step s (Cancel id) = Some (s', RBool b) ->
  (b = true <-> exists t, pending s t /\ tid t = id) /\
  (forall t, pending s' t <-> pending s t /\ tid t <> id).
Proof.
  intros R E. pose proof (reachable_inv _ R) as I. cbn in E.
  destruct (cancel s id) as [s1 c] eqn:C. injection E as <- <-. split.
  - unfold cancel in C. destruct (lookup (by_id s) id) as [t|] eqn:L.
    + injection C as _ <-. split; [|auto]. intros _. exists t. pose proof (i_tid s I _ _ L) as (T & _).
      split; [|exact T]. unfold pending. now rewrite T.
    + injection C as _ <-. split; [discriminate|]. intros (t & P & T). unfold pending in P. congruence.
  - intros t. unfold pending. replace s1 with (fst (cancel s id)) by now rewrite C.
    rewrite cancel_lookup. destruct (N.eqb_spec (tid t) id); intuition congruence.
Qed.

Lemma one_shot_once ops s rs : run init ops = Some (s, rs) -> NoDup (one_shots_ran rs).
Proof.
  assert (G : forall ops s s' rs, Inv s -> run s ops = Some (s', rs) ->
    NoDup (one_shots_ran rs)).
  { clear. induction ops as [|o ops IH]; intros s s' rs I; cbn.
    { intros [= <- <-]. constructor. }
    destruct (step s o) as [[s1 r]|] eqn:E; [|discriminate].
    destruct (run s1 ops) as [[s2 rs']|] eqn:E2; [|discriminate]. intros [= <- <-].
    pose proof (inv_step _ _ _ _ I E) as I1. pose proof (IH _ _ _ I1 E2) as N.
    unfold one_shots_ran in *. cbn [flat_map]. rewrite filter_app, map_app.
    destruct (ran r) as [|t [|]] eqn:Er.
    - exact N.
    - cbn [filter]. destruct (one_shot t) eqn:Eo; [|exact N]. cbn [map app].
      constructor; [|exact N]. intros K. apply in_map_iff in K as (x & Ex & K).
      apply filter_In in K as [K _].
      assert (D : dead s1 (ser t)).
      { destruct o; cbn [step] in E.
        - destruct (schedule s u t0 p c) as [[? ?]|]; [|discriminate]. injection E as <- <-. discriminate.
        - destruct (cancel s id). injection E as <- <-. discriminate.
        - destruct (cancel_user s u). injection E as <- <-. discriminate.
        - destruct (pick s now) as [sp [tp|]] eqn:P; injection E as <- <-; [|discriminate].
          injection Er as ->. destruct (pick_effect _ _ _ _ I P) as (H1 & H2 & H3).
          pose proof (i_tid s I _ _ H1) as (_ & _ & L). split; [lia|].
          intros a ta. rewrite H3. unfold one_shot in Eo. destruct (period t); [discriminate|].
          destruct (N.eqb_spec a (tid t)) as [|Na]; [discriminate|]. intros K2 Q. apply Na.
          eapply (i_ser s I); eassumption.
        - injection E as <- <-. discriminate. }
      destruct (dead_run _ _ _ _ _ I1 E2 D) as [_ F]. now apply F in K.
    - destruct r as [| |[?|]|]; discriminate. }
  intros E. eapply G; [apply inv_init|exact E].
Qed.

(** A pending task stays pending until it is run or cancelled. *)
Lemma not_lost s o s' r t : reachable s -> step s o = Some (s', r) -> pending s t ->
  pending s' t \/ In t (ran r) \/
  (exists id, o = Cancel id /\ tid t = id) \/ (exists u, o = CancelUser u) \/ o = Stop.
Proof.
  intros R E P. pose proof (reachable_inv _ R) as I. destruct o; cbn [step] in E; eauto 6.
  - destruct (schedule s u t0 p c) as [[s1 id]|] eqn:S; [|discriminate]. injection E as <- <-.
    destruct (inv_schedule _ _ _ _ _ _ _ I S) as (_ & Z & NZ). left.
    destruct (N.eq_dec id 0) as [E0|E0]; [apply Z in E0 as [-> _]; exact P|].
    destruct (NZ E0) as (_ & Fr & _ & B & _). unfold pending in *. rewrite B, lookup_put.
    destruct (N.eqb_spec (tid t) id) as [E1|E1]; [|exact P]. rewrite E1 in P. apply lookup_in in P. tauto.
  - destruct (cancel s id) as [s1 b] eqn:C. injection E as <- <-.
    destruct (N.eq_dec (tid t) id) as [E1|E1]; [right; right; left; eauto|]. left. unfold pending in *.
    replace s1 with (fst (cancel s id)) by now rewrite C. rewrite cancel_lookup.
    destruct (N.eqb_spec (tid t) id); [congruence|exact P].
  - destruct (pick s now) as [s1 [x|]] eqn:K; injection E as <- <-.
    + destruct (pick_effect _ _ _ _ I K) as (H1 & _ & H3).
      destruct (N.eq_dec (tid t) (tid x)) as [E1|E1].
      * right. left. unfold pending in *. rewrite E1, H1 in P. injection P as <-. now left.
      * left. unfold pending in *. rewrite H3. destruct (N.eqb_spec (tid t) (tid x)); [congruence|exact P].
    + left. assert (s1 = s) as ->; [|exact P]. unfold pick in K. destruct (queue s) as [|t0 q]; [congruence|].
      destruct (time t0 <? now); [destruct (period t0); discriminate|congruence].
Qed.

(** ** C17 *)

Lemma cancel_user_complete s u s' b : reachable s -> step s (CancelUser u) = Some (s', RBool b) ->
  forall t, pending s' t -> user t <> u /\ pending s t.
Proof.
  intros R E t P. pose proof (reachable_inv _ R) as I. cbn in E.
  destruct (cancel_user s u) as [s1 c] eqn:C. injection E as <- <-.
  unfold pending in *. replace s1 with (fst (cancel_user s u)) in P by now rewrite C.
  rewrite cancel_user_lookup in P. destruct (mem (tid t) (ids_of (by_user s) u)) eqn:M; [discriminate|].
  apply mem_false in M. split; [|exact P]. intros K. apply M. rewrite <- K. now apply (i_user s I).
Qed.

(** No stale identifiers: every identifier in a user's set is that of a live
    task of the user. *)
Definition no_stale (s : sched) : Prop :=
  forall u id t, In id (ids_of (by_user s) u) -> lookup (by_id s) id = Some t -> user t = u.

Lemma cancel_user_exact s u s' b : Inv s -> no_stale s ->
  step s (CancelUser u) = Some (s', RBool b) ->
  forall t, pending s' t <-> pending s t /\ user t <> u.
Proof.
  intros I NS E t. cbn in E. destruct (cancel_user s u) as [s1 c] eqn:C. injection E as <- <-.
  unfold pending. replace s1 with (fst (cancel_user s u)) by now rewrite C.
  rewrite cancel_user_lookup. destruct (mem (tid t) (ids_of (by_user s) u)) eqn:M.
  - apply mem_spec in M. split; [discriminate|]. intros [P N]. exfalso. apply N. now apply (NS u (tid t)).
  - apply mem_false in M. split; [|tauto]. intros P. split; [exact P|]. intros K. apply M.
    rewrite <- K. now apply (i_user s I).
Qed.

(** First sufficient condition: nobody cancels single tasks. *)
Definition exact_sets (s : sched) : Prop :=
  forall u id, In id (ids_of (by_user s) u) -> exists t, lookup (by_id s) id = Some t /\ user t = u.

Lemma exact_step s o s' r : Inv s -> exact_sets s -> is_cancel o = false ->
  step s o = Some (s', r) -> exact_sets s'.
Proof.
  intros I X N E. destruct o; cbn [step] in E; try discriminate N.
  - destruct (schedule s u t p c) as [[s1 id]|] eqn:S; [|discriminate]. injection E as <- <-.
    destruct (inv_schedule _ _ _ _ _ _ _ I S) as (_ & Z & NZ).
    destruct (N.eq_dec id 0) as [E0|E0]; [apply Z in E0 as [-> _]; exact X|].
    destruct (NZ E0) as (_ & Fr & _ & B & _ & U & _). intros v k. rewrite U, ids_of_put, B, lookup_put.
    destruct (N.eqb_spec k id) as [E1|E1].
    + subst k. intros K. eexists. split; [reflexivity|]. cbn.
      destruct (N.eqb_spec v u) as [|E2]; [congruence|]. apply X in K as (t' & K & _).
      apply lookup_in in K. tauto.
    + destruct (N.eqb_spec v u) as [E2|E2]; [|apply X]. rewrite in_set_insert. subst v.
      intros [|K]; [congruence|]. now apply X.
  - destruct (cancel_user s u) as [s1 b] eqn:C. injection E as <- <-.
    replace s1 with (fst (cancel_user s u)) by now rewrite C. intros v k K.
    rewrite cancel_user_lookup.
    assert (Hv : v <> u /\ In k (ids_of (by_user s) v)).
    { unfold cancel_user in K. destruct (lookup (by_user s) u) as [ids|] eqn:L.
      - cbn [fst by_user] in K. fold (cancel_all ids s) in K. rewrite cancel_all_by_user in K.
        unfold ids_of in *. rewrite lookup_erase in K. destruct (N.eqb_spec v u); [destruct K|]. auto.
      - cbn [fst] in K. split; [|exact K]. intros ->. unfold ids_of in K. rewrite L in K. destruct K. }
    destruct Hv as [Hv K2]. destruct (X _ _ K2) as (t & L & T). exists t. split; [|exact T].
    destruct (mem k (ids_of (by_user s) u)) eqn:M; [|exact L]. apply mem_spec in M.
    destruct (X _ _ M) as (t2 & L2 & T2). congruence.
  - destruct (pick s now) as [s1 o] eqn:P. injection E as <- <-.
    unfold pick in P. destruct (queue s) as [|t q] eqn:Q; [injection P as <- <-; exact X|].
    destruct (time t <? now); [|injection P as <- <-; exact X].
    destruct (queue_head s t q I Q) as [H1 _]. unfold pending in H1.
    destruct (period t) as [p|] eqn:Ep; injection P as <- <-; intros v k; cbn [by_user by_id].
    + intros K. destruct (X _ _ K) as (x & L & T). rewrite lookup_put.
      destruct (N.eqb_spec k (tid t)) as [E1|E1]; [|eauto]. subst k. rewrite H1 in L. injection L as <-.
      eexists. split; [reflexivity|]. exact T.
    + rewrite ids_of_put, lookup_erase. destruct (N.eqb_spec v (user t)) as [E1|E1].
      * rewrite in_set_erase. intros [K N1]. destruct (N.eqb_spec k (tid t)); [congruence|].
        subst v. now apply X.
      * intros K. destruct (X _ _ K) as (x & L & T). destruct (N.eqb_spec k (tid t)) as [E2|E2]; [|eauto].
        subst k. rewrite H1 in L. injection L as <-. congruence.
Qed.

Lemma exact_run ops : forall s s' rs, Inv s -> exact_sets s ->
  forallb (fun o => negb (is_cancel o)) ops = true ->
  run s ops = Some (s', rs) -> exact_sets s'.
Proof.
  induction ops as [|o ops IH]; intros s s' rs I X; cbn.
  { intros _ [= <- <-]. exact X. }
  intros F. apply andb_true_iff in F as [F1 F2]. apply negb_true_iff in F1.
  destruct (step s o) as [[s1 r]|] eqn:E; [|discriminate].
  destruct (run s1 ops) as [[s2 rs']|] eqn:E2; [|discriminate]. intros [= <- <-].
  eapply IH; [| |exact F2|exact E2]; [eapply inv_step|eapply exact_step]; eassumption.
Qed.

Lemma cancel_user_no_cancel ops s rs u s' b :
  run init ops = Some (s, rs) -> forallb (fun o => negb (is_cancel o)) ops = true ->
  step s (CancelUser u) = Some (s', RBool b) ->
  forall t, pending s' t <-> pending s t /\ user t <> u.
Proof.
  intros R F. apply cancel_user_exact.
  - eapply inv_run; [apply inv_init|exact R].
  - intros v id t H L. assert (X : exact_sets s).
    { eapply exact_run; [apply inv_init| |exact F|exact R]. intros w k []. }
    destruct (X _ _ H) as (t' & L' & T). congruence.
Qed.

(** Second sufficient condition: identifiers have not wrapped around. The
    ghost list [own] records which user each identifier was given to. *)
Definition owned (s : sched) (own : list (N * N)) (n : N) : Prop :=
  n <= 65535 -> last_id s = n /\
  (forall id v, In (id, v) own -> 1 <= id <= n) /\
  (forall id v v', In (id, v) own -> In (id, v') own -> v = v') /\
  (forall u id, In id (ids_of (by_user s) u) -> In (id, u) own) /\
  (forall id t, lookup (by_id s) id = Some t -> In (id, user t) own).

Lemma owned_step s own n o s' r : Inv s -> owned s own n -> step s o = Some (s', r) ->
  exists own', owned s' own' (n + if accepted r then 1 else 0).
Proof.
  intros I X E. unfold owned in *. destruct o; cbn [step] in E.
  - destruct (schedule s u t p c) as [[s1 id]|] eqn:S; [|discriminate]. injection E as <- <-.
    destruct (inv_schedule _ _ _ _ _ _ _ I S) as (_ & Z & NZ). cbn [accepted].
    destruct (N.eqb_spec id 0) as [E0|E0]; cbn [negb].
    { apply Z in E0 as [-> _]. exists own. rewrite N.add_0_r. exact X. }
    destruct (NZ E0) as (Cnt & Fr & Rg & B & _ & U & Ls). exists ((id, u) :: own). intros Hn.
    destruct X as (X1 & X2 & X3 & X4 & X5); [lia|].
    assert (Hid : id = n + 1).
    { unfold schedule in S. destruct (_ =? 65535); [injection S as <- <-; congruence|].
      destruct (search _ _ _) as [k|] eqn:Sr; [|discriminate]. injection S as _ ->.
      cbn [search] in Sr. assert (Nx : next_id (last_id s) = n + 1).
      { unfold next_id. rewrite X1. destruct (N.eqb_spec n 65535); lia. }
      rewrite Nx in Sr. destruct (has (by_id s) (n + 1)) eqn:H; [|congruence].
      apply has_spec, in_lookup in H as [d H]. apply X5, X2 in H. lia. }
    split; [congruence|]. split; [|split; [|split]].
    + intros k v [K|K]; [injection K as <- <-; lia|]. apply X2 in K. lia.
    + intros k v v' [K|K] [L|L]; [congruence| | |eauto].
      * injection K as <- <-. apply X2 in L. lia.
      * injection L as <- <-. apply X2 in K. lia.
    + intros v k. rewrite U, ids_of_put. destruct (N.eqb_spec v u) as [->|]; [|intros; right; auto].
      rewrite in_set_insert. intros [->|K]; [now left|right; auto].
    + intros k t'. rewrite B, lookup_put. destruct (N.eqb_spec k id) as [->|]; [|intros; right; auto].
      intros [= <-]. now left.
  - destruct (cancel s id) as [s1 b] eqn:C. injection E as <- <-. exists own. cbn. rewrite N.add_0_r.
    replace s1 with (fst (cancel s id)) by now rewrite C. intros Hn.
    destruct (X Hn) as (X1 & X2 & X3 & X4 & X5). rewrite (proj2 (cancel_next_ser s id)), cancel_by_user.
    do 4 (split; [assumption|]). intros k t. rewrite cancel_lookup. destruct (k =? id); [discriminate|auto].
  - destruct (cancel_user s u) as [s1 b] eqn:C. injection E as <- <-. exists own. cbn. rewrite N.add_0_r.
    replace s1 with (fst (cancel_user s u)) by now rewrite C. intros Hn.
    destruct (X Hn) as (X1 & X2 & X3 & X4 & X5).
    assert (A : last_id (fst (cancel_user s u)) = last_id s /\
      forall v k, In k (ids_of (by_user (fst (cancel_user s u))) v) -> In k (ids_of (by_user s) v)).
    { unfold cancel_user. destruct (lookup (by_user s) u) as [ids|]; [|auto]. cbn [fst last_id by_user].
      fold (cancel_all ids s). rewrite cancel_all_by_user. split; [apply cancel_all_next_ser|].
      intros v k. unfold ids_of. rewrite lookup_erase. destruct (v =? u); [intros []|auto]. }
    destruct A as [A1 A2]. split; [congruence|]. do 2 (split; [assumption|]). split; [auto|].
    intros k t. rewrite cancel_user_lookup. destruct (mem _ _); [discriminate|auto].
  - destruct (pick s now) as [s1 o] eqn:P. injection E as <- <-. exists own. cbn [accepted]. rewrite N.add_0_r.
    intros Hn. destruct (X Hn) as (X1 & X2 & X3 & X4 & X5).
    unfold pick in P. destruct (queue s) as [|t q] eqn:Q; [injection P as <- <-; auto 6|].
    destruct (time t <? now); [|injection P as <- <-; auto 6].
    destruct (queue_head s t q I Q) as [H1 _]. unfold pending in H1.
    destruct (period t) as [p|] eqn:Ep; injection P as <- <-; cbn [by_user by_id last_id];
      do 3 (split; [assumption|]); split.
    + assumption.
    + intros k x. rewrite lookup_put. destruct (N.eqb_spec k (tid t)) as [->|]; [|auto].
      intros [= <-]. cbn. auto.
    + intros v k. rewrite ids_of_put. destruct (N.eqb_spec v (user t)) as [->|]; [|auto].
      rewrite in_set_erase. intros [K _]. auto.
    + intros k x. rewrite lookup_erase. destruct (k =? tid t); [discriminate|auto].
  - injection E as <- <-. exists own. cbn. rewrite N.add_0_r. intros Hn.
    destruct (X Hn) as (X1 & X2 & X3 & X4 & X5). do 4 (split; [assumption|]). discriminate.
Qed.

Lemma owned_run ops : forall s own n s' rs, Inv s -> owned s own n -> run s ops = Some (s', rs) ->
  exists own', owned s' own' (n + accepted_count rs).
Proof.
  induction ops as [|o ops IH]; intros s own n s' rs I X; cbn [run].
  { intros [= <- <-]. exists own. unfold accepted_count. cbn. now rewrite N.add_0_r. }
  destruct (step s o) as [[s1 r]|] eqn:E; [|discriminate].
  destruct (run s1 ops) as [[s2 rs']|] eqn:E2; [|discriminate]. intros [= <- <-].
  destruct (owned_step _ _ _ _ _ _ I X E) as [own' X'].
  destruct (IH _ _ _ _ _ (inv_step _ _ _ _ I E) X' E2) as [own2 X2]. exists own2.
  replace (n + accepted_count (r :: rs')) with (n + (if accepted r then 1 else 0) + accepted_count rs'); [exact X2|].
  unfold accepted_count. cbn [filter]. destruct (accepted r); rewrite ?lenN_cons; lia.
Qed.

Lemma cancel_user_no_wrap ops s rs u s' b :
  run init ops = Some (s, rs) -> accepted_count rs <= 65535 ->
  step s (CancelUser u) = Some (s', RBool b) ->
  forall t, pending s' t <-> pending s t /\ user t <> u.
Proof.
  intros R Cn. apply cancel_user_exact; [eapply inv_run; [apply inv_init|exact R]|].
  assert (X : owned init [] 0).
  { intros _. cbn. repeat split; try tauto; intros; try discriminate; try contradiction. }
  destruct (owned_run _ _ _ _ _ _ inv_init X R) as [own Y]. rewrite N.add_0_l in Y.
  destruct (Y Cn) as (_ & _ & Y3 & Y4 & Y5). intros v id t H L. eapply Y3; [apply Y5; exact L|auto].
Qed.

(** The stale identifier: user 1's task 1 is cancelled, its identifier stays
    in user 1's set, comes round again and is given to user 2. *)
Fixpoint churn (n : nat) (s : sched) : option sched :=
  match n with
  | O => Some s
  | S k =>
      match schedule s 3 0 None 0 with
      | Some (s1, _) => churn k (fst (pick s1 1))
      | None => None
      end
  end.
Fixpoint churn_ops (n : nat) : list op :=
  match n with O => [] | S k => Schedule 3 0 None 0 :: Pick 1 :: churn_ops k end.

Lemma churn_run n : forall s s', churn n s = Some s' -> exists rs, run s (churn_ops n) = Some (s', rs).
Proof.
  induction n as [|n IH]; intros s s'; cbn [churn churn_ops run].
  { intros [= <-]. eauto. }
  cbn [step]. destruct (schedule s 3 0 None 0) as [[s1 id]|]; [|discriminate].
  destruct (pick s1 1) as [s2 t] eqn:P. cbn [fst]. intros H. apply IH in H as [rs H].
  rewrite H. eauto.
Qed.

Lemma run_app a : forall b s s1 r1 s2 r2, run s a = Some (s1, r1) -> run s1 b = Some (s2, r2) ->
  run s (a ++ b) = Some (s2, r1 ++ r2).
Proof.
  induction a as [|o a IH]; intros b s s1 r1 s2 r2; cbn.
  { intros [= <- <-]. auto. }
  destruct (step s o) as [[s' r]|]; [|discriminate].
  destruct (run s' a) as [[s'' rs]|] eqn:E; [|discriminate]. intros [= <- <-] H.
  now rewrite (IH _ _ _ _ _ _ E H).
Qed.

Definition after_cancel : sched :=
  match run init [Schedule 1 0 None 0; Cancel 1] with Some (s, _) => s | None => init end.
Definition after_churn : sched :=
  match churn (N.to_nat 65534) after_cancel with Some s => s | None => init end.

Lemma after_churn_value :
  match churn (N.to_nat 65534) after_cancel with
  | Some s => Some (last_id s, by_id s, by_user s, queue s)
  | None => None
  end = Some (65535, [], [(1, [1]); (3, [])], []).
Proof. vm_compute. reflexivity. Qed.

Lemma stale_witness : exists s t s', reachable s /\ pending s t /\ user t = 2 /\
  step s (CancelUser 1) = Some (s', RBool true) /\ ~ pending s' t.
Proof.
  pose proof after_churn_value as V.
  destruct (churn (N.to_nat 65534) after_cancel) as [s0|] eqn:E; [|discriminate].
  destruct (churn_run _ _ _ E) as [rs0 E0].
  destruct s0 as [li ns bi bu qu]. injection V as -> -> -> ->.
  assert (R1 : run init [Schedule 1 0 None 0; Cancel 1] = Some (after_cancel, [RId 1; RBool true]))
    by reflexivity.
  pose proof (run_app _ _ _ _ _ _ _ R1 E0) as R2. clear E E0 R1.
  set (s1 := {| last_id := 65535; next_ser := ns; by_id := []; by_user := [(1, [1]); (3, [])]; queue := [] |}) in *.
  set (tk := {| ser := ns; tid := 1; time := 9; period := None; user := 2; cb := 0 |}).
  set (s2 := {| last_id := 1; next_ser := ns + 1; by_id := [(1, tk)];
                by_user := [(1, [1]); (3, []); (2, [1])]; queue := [tk] |}).
  assert (R3 : run s1 [Schedule 2 9 None 0] = Some (s2, [RId 1])) by reflexivity.
  pose proof (run_app _ _ _ _ _ _ _ R2 R3) as R4.
  exists s2, tk. eexists. split; [eexists _, _; exact R4|]. split; [reflexivity|]. split; [reflexivity|].
  split; [reflexivity|]. unfold pending. cbn. discriminate.
Qed.

Example async_demo : exists s rs,
  run init [Schedule 1 10 (Some 5) 7; Schedule 2 3 None 8; Schedule 1 20 None 9;
            Pick 2; Pick 12; Pick 12; Pick 12; Cancel 3; Pick 30; CancelUser 1] = Some (s, rs) /\
  map cb (flat_map ran rs) = [8; 7; 7] /\ pending_count s = 0.
Proof. eexists _, _. split; [vm_compute; reflexivity|]. split; reflexivity. Qed.
