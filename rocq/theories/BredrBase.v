(** Basic facts about the model of the BR/EDR controller: the scheduler's queue, the
    lookups by address, and which parts of the state each helper leaves alone. *)
From Coq Require Import Permutation.
From Verif Require Import Prelude Table Sco Bredr.
From Verif Require Handles HandlesProofs.
Import Handles(get_unused_handle, kAclRangeStart, kAclRangeEnd, kScoRangeStart, kScoRangeEnd).
Open Scope N_scope.

Ltac fields :=
  cbn [address acls last_acl scos last_sco page page_scan inquiry page_scan_enable inquiry_scan_enable page_timeout
       default_policy mask iac class name eir inquiry_mode host_features voice links queue next_id
       with_address with_acls with_last_acl with_scos with_last_sco with_page with_page_scan with_inquiry
       with_page_scan_enable with_inquiry_scan_enable with_page_timeout with_default_policy with_mask with_iac
       with_class with_name with_eir with_inquiry_mode with_host_features with_voice with_links with_queue with_next_id
       schedule transmit tell to_peer cancel
       acl_peer acl_role acl_policy last_heard with_acl_peer with_acl_role with_acl_policy with_last_heard
       sco_peer sco_params sco_negotiated sco_now sco_spoofed sco_legacy sco_stream
       with_sco_peer with_sco_params with_sco_negotiated with_sco_now with_sco_spoofed with_sco_legacy with_sco_stream
       fst snd due ident what_to_do] in *.

(** The stream of a synchronous connection that is given up is stopped *)
Ltac no_stream H := match type of H with context[match sco_stream ?c with Some _ => _ | None => _ end] => destruct (sco_stream c); [discriminate H|] end.

(** * The queue *)

Lemma in_insert : forall t q u, In u (insert t q) <-> u = t \/ In u q.
Proof.
  induction q as [|v q IH]; intros u; cbn [insert].
  - cbn. intuition auto.
  - destruct (before t v); cbn [In].
    + intuition auto.
    + rewrite IH. intuition auto.
Qed.
Lemma insert_permutation : forall t q, Permutation (insert t q) (t :: q).
Proof.
  induction q as [|v q IH]; cbn [insert]; [reflexivity|]. destruct (before t v); [reflexivity|].
  rewrite IH. apply perm_swap.
Qed.
Lemma length_insert : forall t q, List.length (insert t q) = S (List.length q).
Proof. intros t q. now rewrite (Permutation_length (insert_permutation t q)). Qed.

Definition earlier (a b : task) : Prop := before a b = true.
Lemma before_spec : forall a b, before a b = true <-> due a < due b \/ (due a = due b /\ ident a < ident b).
Proof.
  intros a b. unfold before. rewrite Bool.orb_true_iff, Bool.andb_true_iff, !N.ltb_lt, N.eqb_eq. tauto.
Qed.
Lemma before_trans : forall a b c, earlier a b -> earlier b c -> earlier a c.
Proof. unfold earlier. intros a b c. rewrite !before_spec. lia. Qed.
Lemma before_total : forall a b, ident a <> ident b -> before a b = false -> before b a = true.
Proof.
  intros a b D. rewrite before_spec. intros F. destruct (N.lt_trichotomy (due b) (due a)) as [L|[E|L]]; auto.
  - right. split; auto. assert (~ ident a < ident b); [|lia].
    intros I. assert (before a b = true) by (apply before_spec; lia). congruence.
  - assert (before a b = true) by (apply before_spec; lia). congruence.
Qed.

(** Sorted, with identifiers below the counter, all different *)
Fixpoint sorted (q : list task) : Prop :=
  match q with [] => True | t :: q => (forall u, In u q -> earlier t u) /\ sorted q end.
Lemma sorted_insert : forall t q, (forall u, In u q -> ident u <> ident t) -> sorted q -> sorted (insert t q).
Proof.
  induction q as [|v q IH]; intros D S; cbn [insert].
  - cbn. split; [intros u []|exact I].
  - destruct S as (A & S). destruct (before t v) eqn:B.
    + cbn [sorted]. split; [|split; auto]. intros u [<-|I]; auto. eapply before_trans; [exact B|auto].
    + cbn [sorted]. split.
      * intros u I. apply in_insert in I. destruct I as [->|I]; auto.
        apply before_total; auto. intros E. apply (D v); [now left|congruence].
      * apply IH; auto. intros u I. apply D. now right.
Qed.

Record good_queue (s : bredr) : Prop := {
  gq_sorted : sorted (queue s);
  gq_fresh : forall t, In t (queue s) -> ident t < next_id s;
  gq_nodup : NoDup (map ident (queue s)) }.

Lemma in_remove_task : forall i q t, In t (remove_task i q) -> In t q.
Proof.
  induction q as [|u q IH]; cbn [remove_task]; intros t H; auto.
  destruct (ident u =? i); cbn; auto. destruct H as [<-|H]; auto.
Qed.
Lemma remove_task_in : forall i q t, In t q -> ident t <> i -> In t (remove_task i q).
Proof.
  induction q as [|u q IH]; cbn [remove_task]; intros t H D; auto.
  destruct H as [->|H].
  - rewrite (proj2 (N.eqb_neq _ _) D). now left.
  - destruct (ident u =? i); auto. right. auto.
Qed.
Lemma sorted_remove : forall i q, sorted q -> sorted (remove_task i q).
Proof.
  induction q as [|u q IH]; cbn [remove_task sorted]; auto. intros (A & S).
  destruct (ident u =? i); auto. cbn [sorted]. split; auto. intros v I. apply A. eapply in_remove_task, I.
Qed.
Lemma nodup_remove_task : forall i q, NoDup (map ident q) -> NoDup (map ident (remove_task i q)).
Proof.
  induction q as [|u q IH]; cbn [remove_task map]; auto. intros H. inversion H; subst.
  destruct (ident u =? i); auto. cbn [map]. constructor; auto.
  intros I. apply in_map_iff in I. destruct I as (v & E & I). apply in_remove_task in I.
  match goal with N : ~ In _ _ |- _ => apply N end. apply in_map_iff. eauto.
Qed.

Lemma good_schedule : forall t j s, good_queue s -> good_queue (schedule t j s).
Proof.
  intros t j s [S F D]. constructor; fields.
  - apply sorted_insert; auto. intros u I. cbn. apply F in I. lia.
  - intros u I. apply in_insert in I. destruct I as [->|I]; cbn; [lia|]. apply F in I. lia.
  - rewrite (Permutation_map ident (insert_permutation _ _)). cbn. constructor; auto.
    intros I. apply in_map_iff in I. destruct I as (u & E & I). apply F in I. lia.
Qed.
Lemma good_cancel : forall i s, good_queue s -> good_queue (cancel i s).
Proof.
  intros i s [S F D]. constructor; fields.
  - now apply sorted_remove.
  - intros t I. apply F. eapply in_remove_task, I.
  - now apply nodup_remove_task.
Qed.
Lemma good_same : forall s s', queue s' = queue s -> next_id s' = next_id s -> good_queue s -> good_queue s'.
Proof. intros s s' E1 E2 [S F D]. constructor; rewrite ?E1, ?E2; auto. Qed.

(** * What is left in the queue: the sum of a weight over the jobs *)
Definition work (w : job -> nat) (q : list task) : nat := list_sum (map (fun t => w (what_to_do t)) q).
Lemma work_insert : forall w t q, work w (insert t q) = (w (what_to_do t) + work w q)%nat.
Proof.
  intros w t q. unfold work. induction q as [|u q IH]; cbn [insert]; [reflexivity|].
  destruct (before t u); [reflexivity|]. cbn [map list_sum fold_right] in *. unfold list_sum in *. lia.
Qed.
Lemma work_schedule : forall w t j s, work w (queue (schedule t j s)) = (w j + work w (queue s))%nat.
Proof. intros w t j s. fields. now rewrite work_insert. Qed.
Lemma work_cons : forall w t q, work w (t :: q) = (w (what_to_do t) + work w q)%nat.
Proof. reflexivity. Qed.
Lemma work_remove : forall w i q, (forall t, In t q -> ident t = i -> w (what_to_do t) = 0%nat) -> work w (remove_task i q) = work w q.
Proof.
  intros w i. induction q as [|u q IH]; intros H; cbn [remove_task]; auto.
  destruct (ident u =? i) eqn:E.
  - rewrite work_cons, (H u); auto; [now left|now apply N.eqb_eq].
  - rewrite !work_cons, IH; auto. intros t I. apply H. now right.
Qed.

(** * Lookups by address *)

Lemma acl_of_some : forall a s h c, acl_of a s = Some (h, c) -> In (h, c) (acls s) /\ acl_peer c = a.
Proof.
  unfold acl_of. intros a s h c F. apply find_some in F. destruct F as (I & E). cbn in E. now apply list_eqb_eq in E.
Qed.
Lemma acl_of_none : forall a s h c, acl_of a s = None -> In (h, c) (acls s) -> acl_peer c <> a.
Proof.
  unfold acl_of. intros a s h c F I E. apply (find_none _ _ F) in I. cbn in I. rewrite E, list_eqb_refl in I. discriminate.
Qed.
Definition peers (s : bredr) : list addr := map (fun e => acl_peer (snd e)) (acls s).
Lemma acl_of_peers : forall a s, acl_of a s = None <-> ~ In a (peers s).
Proof.
  intros a s. unfold peers. split.
  - intros F I. apply in_map_iff in I. destruct I as ([h c] & E & I). cbn in E. eapply acl_of_none; eauto.
  - intros N. destruct (acl_of a s) as [[h c]|] eqn:F; auto. apply acl_of_some in F. destruct F as (I & E).
    exfalso. apply N. apply in_map_iff. exists (h, c). auto.
Qed.
Lemma has_acl_with_spec : forall a s, has_acl_with a s = false <-> ~ In a (peers s).
Proof.
  intros a s. unfold has_acl_with. rewrite <- acl_of_peers. destruct (acl_of a s); split; congruence.
Qed.

Section WithOrder.
Variable order : table sco_link -> table sco_link.
Hypothesis any_order : forall t, Permutation (order t) t.

Lemma sco_of_some : forall a s h c, sco_of order a s = Some (h, c) -> In (h, c) (scos s) /\ sco_peer c = a.
Proof.
  unfold sco_of. intros a s h c F. apply find_some in F. destruct F as (I & E). cbn in E. apply list_eqb_eq in E.
  split; auto. eapply Permutation_in; [apply any_order|exact I].
Qed.
Lemma sco_of_none : forall a s h c, sco_of order a s = None -> In (h, c) (scos s) -> sco_peer c <> a.
Proof.
  unfold sco_of. intros a s h c F I E.
  assert (I' : In (h, c) (order (scos s))) by (eapply Permutation_in; [apply Permutation_sym, any_order|exact I]).
  apply (find_none _ _ F) in I'. cbn in I'. rewrite E, list_eqb_refl in I'. discriminate.
Qed.
End WithOrder.

(** * What [tell_disconnection], [stop_stream] and the like leave alone *)

(** Everything but the queue is the same *)
Definition same_but_queue (s s' : bredr) : Prop := exists q n, s' = with_next_id n (with_queue q s).
Lemma sbq_refl : forall s, same_but_queue s s.
Proof. intros s. exists (queue s), (next_id s). now destruct s. Qed.
Lemma sbq_trans : forall a b c, same_but_queue a b -> same_but_queue b c -> same_but_queue a c.
Proof. intros a b c (q & n & ->) (q' & n' & ->). exists q', n'. reflexivity. Qed.
Lemma sbq_schedule : forall t j s, same_but_queue s (schedule t j s).
Proof. intros t j s. unfold schedule. now eexists _, _. Qed.
Lemma sbq_cancel : forall i s, same_but_queue s (cancel i s).
Proof. intros i s. exists (remove_task i (queue s)), (next_id s). now destruct s. Qed.
Lemma sbq_tell_disconnection : forall now h r s, same_but_queue s (tell_disconnection now h r s).
Proof. intros. unfold tell_disconnection. destruct (unmasked s 5); [apply sbq_schedule|apply sbq_refl]. Qed.
Lemma sbq_stop_stream : forall c s, same_but_queue s (stop_stream c s).
Proof. intros. unfold stop_stream. destruct (sco_stream c); [apply sbq_cancel|apply sbq_refl]. Qed.
