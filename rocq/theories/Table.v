(** Finite maps from numbers as association lists, the model of std::map and
    std::unordered_map. Sets are lists without repetition. *)
From Verif Require Import Prelude.
Open Scope N_scope.

Definition table (C : Type) := list (N * C).

Section Table.
Context {C : Type}.
Implicit Types (m : table C) (h k : N) (c : C).

(** m.count(h) != 0 *)
Definition has m h : bool := existsb (fun e => fst e =? h) m.
(** m.erase(h) *)
Definition erase m h : table C := filter (fun e => negb (fst e =? h)) m.
(** m.find(h) *)
Fixpoint lookup m h : option C :=
  match m with
  | [] => None
  | (k, c) :: m' => if k =? h then Some c else lookup m' h
  end.
Definition keys m : list N := map fst m.
Definition values m : list C := map snd m.
(** m[h] = c *)
Fixpoint put m h c : table C :=
  match m with
  | [] => [(h, c)]
  | (k, d) :: m' => if k =? h then (h, c) :: m' else (k, d) :: put m' h c
  end.

Lemma has_spec m h : has m h = true <-> In h (keys m).
Proof.
  unfold has, keys. rewrite existsb_exists, in_map_iff. split.
  - intros (e & H1 & H2). apply N.eqb_eq in H2. eauto.
  - intros (e & <- & H). exists e. now rewrite N.eqb_refl.
Qed.

Lemma has_false m h : has m h = false <-> ~ In h (keys m).
Proof. rewrite <- has_spec. now destruct (has m h); split; intros; try discriminate; auto. Qed.

Lemma lookup_none m h : lookup m h = None <-> ~ In h (keys m).
Proof.
  induction m as [|[k c] m IH]; cbn; [tauto|].
  destruct (N.eqb_spec k h) as [E|E]; [split; [discriminate|]; intuition|].
  rewrite IH. intuition.
Qed.

Lemma lookup_pair m h c : lookup m h = Some c -> In (h, c) m.
Proof.
  induction m as [|[k d] m IH]; cbn; [discriminate|].
  destruct (N.eqb_spec k h) as [E|E]; [intros [= <-]; left; congruence|auto].
Qed.

Lemma lookup_in m h c : lookup m h = Some c -> In h (keys m).
Proof. intros H. apply lookup_pair in H. apply in_map_iff. now exists (h, c). Qed.

Lemma in_lookup m h : In h (keys m) -> exists c, lookup m h = Some c.
Proof.
  intros H. destruct (lookup m h) as [c|] eqn:E; [eauto|]. now apply lookup_none in E.
Qed.

Lemma has_lookup m h : has m h = match lookup m h with Some _ => true | None => false end.
Proof.
  destruct (lookup m h) as [c|] eqn:E.
  - apply has_spec. now apply lookup_in in E.
  - apply has_false. now apply lookup_none.
Qed.

Lemma in_lookup_nodup m h c : NoDup (keys m) -> In (h, c) m -> lookup m h = Some c.
Proof.
  induction m as [|[k d] m IH]; cbn; [tauto|]. inversion 1 as [|? ? H1 H2]; subst.
  intros [E|E].
  - injection E as -> ->. now rewrite N.eqb_refl.
  - destruct (N.eqb_spec k h) as [E2|E2]; [|auto]. subst. exfalso. apply H1, in_map_iff.
    now exists (h, c).
Qed.

Lemma in_erase m h e : In e (erase m h) <-> In e m /\ fst e <> h.
Proof. unfold erase. rewrite filter_In, negb_true_iff, N.eqb_neq. reflexivity. Qed.

Lemma in_keys_erase m h k : In k (keys (erase m h)) <-> In k (keys m) /\ k <> h.
Proof.
  unfold keys. rewrite !in_map_iff. split.
  - intros (e & <- & H). apply in_erase in H as [H1 H2]. eauto.
  - intros [(e & <- & H) K]. exists e. split; [reflexivity|]. now apply in_erase.
Qed.

Lemma keys_erase m h : keys (erase m h) = filter (fun k => negb (k =? h)) (keys m).
Proof.
  unfold erase, keys. induction m as [|[k c] m IH]; cbn; [reflexivity|].
  destruct (k =? h); cbn; now rewrite IH.
Qed.

Lemma nodup_erase m h : NoDup (keys m) -> NoDup (keys (erase m h)).
Proof. rewrite keys_erase. apply NoDup_filter. Qed.

Lemma lookup_erase m h k : lookup (erase m h) k = if k =? h then None else lookup m k.
Proof.
  unfold erase. induction m as [|[j c] m IH]; cbn [filter lookup fst]; [now destruct (k =? h)|].
  destruct (N.eqb_spec j h) as [E|E]; cbn [negb lookup].
  - rewrite IH. destruct (N.eqb_spec k h) as [E2|E2]; [reflexivity|].
    destruct (N.eqb_spec j k); [congruence|reflexivity].
  - rewrite IH. destruct (N.eqb_spec j k) as [E2|E2]; [|reflexivity].
    destruct (N.eqb_spec k h); [congruence|reflexivity].
Qed.

Lemma erase_absent m h : ~ In h (keys m) -> erase m h = m.
Proof.
  unfold erase. induction m as [|[k c] m IH]; cbn [filter fst keys map In]; [reflexivity|].
  intros H. destruct (N.eqb_spec k h) as [E|E]; [tauto|]. cbn [negb].
  rewrite IH by (unfold keys; tauto). reflexivity.
Qed.

Lemma lookup_put m h c k : lookup (put m h c) k = if k =? h then Some c else lookup m k.
Proof.
  induction m as [|[j d] m IH]; cbn [put lookup].
  - rewrite (N.eqb_sym h k). reflexivity.
  - destruct (N.eqb_spec j h) as [E|E]; cbn [lookup].
    + rewrite (N.eqb_sym h k). destruct (N.eqb_spec k h) as [E2|E2]; [reflexivity|].
      destruct (N.eqb_spec j k); [congruence|reflexivity].
    + rewrite IH. destruct (N.eqb_spec j k) as [E2|E2]; [|reflexivity].
      destruct (N.eqb_spec k h); [congruence|reflexivity].
Qed.

Lemma keys_put_in m h c : In h (keys m) -> keys (put m h c) = keys m.
Proof.
  unfold keys. induction m as [|[k d] m IH]; cbn [put map fst In]; [tauto|].
  destruct (N.eqb_spec k h) as [E|E]; cbn [map fst]; [intros _; now rewrite E|].
  intros [H|H]; [congruence|]. now rewrite IH.
Qed.

Lemma put_absent m h c : ~ In h (keys m) -> put m h c = m ++ [(h, c)].
Proof.
  unfold keys. induction m as [|[k d] m IH]; cbn [put map fst In app]; [reflexivity|].
  intros H. destruct (N.eqb_spec k h) as [E|E]; [tauto|]. now rewrite IH by tauto.
Qed.

Lemma in_keys_put m h c k : In k (keys (put m h c)) <-> k = h \/ In k (keys m).
Proof.
  destruct (in_dec N.eq_dec h (keys m)) as [H|H].
  - rewrite keys_put_in by exact H. intuition. now subst.
  - rewrite put_absent by exact H. unfold keys. rewrite map_app, in_app_iff. cbn. intuition.
Qed.

Lemma nodup_put m h c : NoDup (keys m) -> NoDup (keys (put m h c)).
Proof.
  intros N. destruct (in_dec N.eq_dec h (keys m)) as [H|H].
  - now rewrite keys_put_in.
  - rewrite put_absent by exact H. unfold keys. rewrite map_app. cbn.
    apply NoDup_rev in N. rewrite <- (rev_involutive (map fst m ++ [h])). apply NoDup_rev.
    rewrite rev_app_distr. cbn. constructor; [|exact N]. now rewrite <- in_rev.
Qed.

Lemma in_put m h c e : In e (put m h c) -> e = (h, c) \/ In e m.
Proof.
  induction m as [|[k d] m IH]; cbn; [intuition|].
  destruct (k =? h); cbn; intuition.
Qed.
End Table.

Arguments erase : simpl never.
Arguments has : simpl never.
Arguments put : simpl never.

(** std::set<N> *)
Definition mem (h : N) (l : list N) : bool := existsb (N.eqb h) l.
Definition set_insert (h : N) (l : list N) : list N := if mem h l then l else l ++ [h].
Definition set_erase (h : N) (l : list N) : list N := filter (fun k => negb (k =? h)) l.

Lemma mem_spec h l : mem h l = true <-> In h l.
Proof.
  unfold mem. rewrite existsb_exists. split.
  - intros (x & H & E). apply N.eqb_eq in E. now subst.
  - intros H. exists h. now rewrite N.eqb_refl.
Qed.
Lemma mem_false h l : mem h l = false <-> ~ In h l.
Proof. rewrite <- mem_spec. destruct (mem h l); split; intros; try discriminate; auto. now elim H. Qed.
Lemma in_set_insert h k l : In k (set_insert h l) <-> k = h \/ In k l.
Proof.
  unfold set_insert. destruct (mem h l) eqn:E.
  - apply mem_spec in E. intuition. now subst.
  - rewrite in_app_iff. cbn. intuition.
Qed.
Lemma in_set_erase h k l : In k (set_erase h l) <-> In k l /\ k <> h.
Proof. unfold set_erase. rewrite filter_In, negb_true_iff, N.eqb_neq. reflexivity. Qed.
