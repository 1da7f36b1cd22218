(** Proofs about the test model: the exact effect of each operation on the topology. *)
From Verif Require Import Prelude Table PhyModel PhyModelSpec PhyModelProofs.
Open Scope N_scope.

Lemma candidate_prefix p k : k < 65536 -> with_prefix p (candidate p k).
Proof.
  intros H. exists (k mod 256), (k / 256). unfold candidate. repeat split.
  - apply N.mod_upper_bound. discriminate.
  - apply N.div_lt_upper_bound; [discriminate|]. exact H.
Qed.
Lemma prefix_candidate p a : with_prefix p a -> exists k, k < 65536 /\ a = candidate p k.
Proof.
  intros (lo & hi & L & H & ->). exists (lo + 256 * hi). split; [lia|]. unfold candidate.
  assert ((lo + 256 * hi) mod 256 = lo /\ (lo + 256 * hi) / 256 = hi) as [-> ->]; [|reflexivity].
  rewrite N.mul_comm. split; [rewrite N.mod_add by discriminate; now apply N.mod_small|].
  rewrite N.div_add by discriminate. now rewrite N.div_small.
Qed.

Lemma add_hci_prefix s s' : reachable s -> reuse s = true -> step s (AddHci None) = Some s' ->
  exists d a, ~ present s d /\ address_of s' d = Some a /\ with_prefix (prefix s) a /\
    (forall e, e <> d -> address_of s' e = address_of s e /\ address_of s' e <> Some a).
Proof.
  intros R U S. destruct (add_hci_address s s' R U S) as (d & a & A & B & (k & K & ->) & D).
  exists d, (candidate (prefix s) k). repeat split; try tauto; try apply D; auto. now apply candidate_prefix.
Qed.
Lemma add_hci_hangs s a : reachable s ->
  (step s (AddHci a) = None <-> reuse s = true /\
   forall b, with_prefix (prefix s) b -> exists d, address_of s d = Some b).
Proof.
  intros R. rewrite (add_hci_returns s a R). split; intros [U H]; (split; [exact U|]).
  - intros b W. apply prefix_candidate in W as (k & K & ->). now apply H.
  - intros k K. apply H. now apply candidate_prefix.
Qed.

(** ** Attachments *)

Lemma register_attachments s l d k e : attachments (register s l d) k e =
  match lookup (layers s) k, lookup (devices s) e with
  | Some _, Some _ => if (d =? e) && (l =? k) then S (attachments s k e) else attachments s k e
  | _, _ => attachments s k e
  end.
Proof.
  unfold register, attachments. destruct (lookup (layers s) l) as [ly|] eqn:L.
  2:{ destruct (lookup (layers s) k) eqn:K; [|reflexivity]. destruct (lookup (devices s) e); [|reflexivity].
      destruct (N.eqb_spec l k) as [->|]; [congruence|]. now rewrite andb_false_r. }
  destruct (lookup (devices s) d) as [dv|] eqn:D.
  2:{ destruct (lookup (layers s) k) eqn:K; [|reflexivity]. destruct (lookup (devices s) e) eqn:E; [|reflexivity].
      destruct (N.eqb_spec d e) as [->|]; [congruence|]. reflexivity. }
  cbn [layers with_tables]. rewrite lookup_put. destruct (N.eqb_spec k l) as [->|NE].
  - cbn [members]. rewrite L, N.eqb_refl, andb_true_r, times_app. unfold times at 2. cbn [count_occ].
    destruct (N.eq_dec d e) as [->|N].
    + rewrite D, N.eqb_refl. unfold times. lia.
    + rewrite (proj2 (N.eqb_neq d e) N). destruct (lookup (devices s) e); unfold times; lia.
  - destruct (N.eqb_spec l k) as [->|]; [congruence|]. rewrite andb_false_r.
    destruct (lookup (layers s) k); [|reflexivity]. now destruct (lookup (devices s) e).
Qed.

Lemma registers_attachments d ls : forall s k e, NoDup ls -> In d (keys (devices s)) ->
  attachments (fold_left (fun s l => register s l d) ls s) k e
  = if (d =? e) && mem k ls && has (layers s) k then S (attachments s k e) else attachments s k e.
Proof.
  induction ls as [|l ls IH]; intros s k e ND D; cbn [fold_left].
  { cbn [mem existsb]. now rewrite andb_false_r. }
  inversion ND as [|? ? N1 N2]; subst.
  pose proof (register_keys s l d) as (K1 & K2 & _).
  assert (has (layers (register s l d)) k = has (layers s) k) as HK.
  { destruct (has (layers s) k) eqn:E; [apply has_spec; rewrite K1; now apply has_spec|apply has_false; rewrite K1; now apply has_false]. }
  rewrite (IH (register s l d) k e N2 ltac:(rewrite K2; exact D)). rewrite HK, register_attachments.
  cbn [mem existsb]. fold (mem k ls).
  destruct (N.eqb_spec d e) as [->|NE]; cbn [andb].
  - apply in_lookup in D as [dv D]. rewrite D. rewrite has_lookup.
    destruct (lookup (layers s) k) eqn:LK; [|now rewrite !andb_false_r].
    rewrite !andb_true_r. rewrite (N.eqb_sym k l). destruct (N.eqb_spec l k) as [->|]; cbn [orb].
    + apply mem_false in N1. now rewrite N1.
    + reflexivity.
  - destruct (lookup (layers s) k); [|reflexivity]. now destruct (lookup (devices s) e).
Qed.

Lemma unregister_attachments s l d k e : attachments (unregister s l d) k e
  = if (d =? e) && (l =? k) then 0%nat else attachments s k e.
Proof.
  unfold unregister, attachments. destruct (lookup (layers s) l) as [ly|] eqn:L.
  2:{ destruct (N.eqb_spec l k) as [->|]; [rewrite L|]; now rewrite ?andb_false_r, ?if_same; destruct (d =? e). }
  destruct (mem d (members ly)) eqn:M.
  - cbn [layers with_tables]. rewrite lookup_put. destruct (N.eqb_spec k l) as [->|NE].
    + rewrite N.eqb_refl, andb_true_r, L. cbn [members]. rewrite times_erase. now rewrite (N.eqb_sym e d).
    + destruct (N.eqb_spec l k); [congruence|]. now rewrite andb_false_r.
  - destruct (N.eqb_spec l k) as [->|]; [|now rewrite andb_false_r]. rewrite L, andb_true_r.
    destruct (N.eqb_spec d e) as [->|]; [|reflexivity]. apply mem_false in M. apply (count_occ_not_In N.eq_dec) in M. exact M.
Qed.

Lemma unregisters_attachments d ls : forall s k e,
  attachments (fold_left (fun s l => unregister s l d) ls s) k e
  = if (d =? e) && mem k ls then 0%nat else attachments s k e.
Proof.
  induction ls as [|l ls IH]; intros s k e; cbn [fold_left].
  { cbn [mem existsb]. now rewrite andb_false_r. }
  rewrite IH, unregister_attachments. cbn [mem existsb]. fold (mem k ls). rewrite (N.eqb_sym k l).
  destruct (d =? e), (mem k ls), (l =? k); reflexivity.
Qed.

Lemma unregister_all_attachments s l k e : attachments (unregister_all s l) k e
  = if l =? k then 0%nat else attachments s k e.
Proof.
  unfold unregister_all, attachments. destruct (lookup (layers s) l) as [ly|] eqn:L.
  - cbn [layers with_tables]. rewrite lookup_put. rewrite (N.eqb_sym k l). destruct (l =? k); reflexivity.
  - destruct (N.eqb_spec l k) as [->|]; [now rewrite L|reflexivity].
Qed.
Lemma unregister_alls_attachments ls : forall s k e,
  attachments (fold_left unregister_all ls s) k e = if mem k ls then 0%nat else attachments s k e.
Proof.
  induction ls as [|l ls IH]; intros s k e; cbn [fold_left]; [reflexivity|].
  rewrite IH, unregister_all_attachments. cbn [mem existsb]. fold (mem k ls). rewrite (N.eqb_sym k l).
  now destruct (mem k ls), (l =? k).
Qed.

Lemma absent_attachments s d l : Wf s -> ~ present s d -> attachments s l d = 0%nat.
Proof.
  intros W N. destruct (attachments s l d) eqn:E; [reflexivity|]. exfalso. apply N. apply (memb_att_present s l d W).
  apply is_attached_memb. unfold is_attached. now rewrite E.
Qed.
Lemma no_layer_attachments s d l : ~ In l (keys (layers s)) -> attachments s l d = 0%nat.
Proof. intros N. unfold attachments. apply lookup_none in N. now rewrite N. Qed.

Lemma step_attachments s o s' : reachable s -> step s o = Some s' ->
  forall l d, attachments s' l d = attachments_after s o l d.
Proof.
  intros R S l d. apply reachable_wf in R.
  assert (FRESH : ~ present s (next_dev s)) by (intros K; apply (w_dnext s R) in K; lia).
  assert (ADD : forall a k e, attachments (add_device s a) k e = attachments s k e) by reflexivity.
  assert (NEW : forall a, In (next_dev s) (keys (devices (add_device s a)))) by (intros a; cbn; apply in_keys_put; now left).
  destruct o as [a|a ty|a|e|ty|k|e k|e k|e a|b|]; cbn [step] in S; cbn [attachments_after].
  - injection S as <-. reflexivity.
  - injection S as <-. rewrite registers_attachments by (auto using nodup_layers_of, (w_ldup s R)).
    rewrite ADD. rewrite (N.eqb_sym d). destruct (N.eqb_spec (next_dev s) d) as [<-|]; [|reflexivity]. cbn [andb].
    rewrite (absent_attachments s _ l R FRESH). change (layers (add_device s a)) with (layers s).
    rewrite has_lookup. destruct (lookup (layers s) l) as [ly|] eqn:L; [|now rewrite andb_false_r].
    rewrite andb_true_r.
    assert (mem l (layers_of s (Some ty)) = phy_eqb (ltype ly) ty) as ->.
    { destruct (phy_eqb (ltype ly) ty) eqn:E.
      - apply mem_spec. unfold layers_of, keys. apply in_map_iff. exists (l, ly). split; [reflexivity|].
        apply filter_In. split; [exact (lookup_pair _ _ _ L)|exact E].
      - apply mem_false. unfold layers_of, keys. rewrite in_map_iff. intros ([l' ly'] & E1 & I). cbn in E1. subst l'.
        apply filter_In in I as [I E2]. apply in_lookup_nodup in I; [|exact (w_ldup s R)]. cbn in E2. congruence. }
    destruct (ltype ly), ty; reflexivity.
  - destruct (generate s) as [g|]; [|discriminate]. injection S as <-.
    rewrite registers_attachments by (auto using nodup_layers_of, (w_ldup s R)).
    rewrite ADD. rewrite (N.eqb_sym d). destruct (N.eqb_spec (next_dev s) d) as [<-|]; [|reflexivity]. cbn [andb].
    rewrite (absent_attachments s _ l R FRESH). change (layers (add_device s _)) with (layers s).
    rewrite has_lookup. destruct (lookup (layers s) l) as [ly|] eqn:L; [|now rewrite andb_false_r].
    rewrite andb_true_r.
    assert (mem l (layers_of s None) = true) as ->; [|reflexivity].
    apply mem_spec. unfold layers_of, keys. apply in_map_iff. exists (l, ly). split; [reflexivity|].
    apply filter_In. split; [exact (lookup_pair _ _ _ L)|reflexivity].
  - injection S as <-. unfold remove_device.
    change (attachments (with_tables ?x (layers ?x) ?y) ?p ?q) with (attachments x p q).
    rewrite unregisters_attachments. destruct (N.eqb_spec e d) as [->|]; [|reflexivity]. cbn [andb].
    destruct (mem l (keys (layers s))) eqn:M; [reflexivity|]. apply mem_false in M. now apply no_layer_attachments.
  - injection S as <-. unfold attachments, add_phy. cbn [layers]. rewrite lookup_put.
    destruct (N.eqb_spec l (next_phy s)) as [->|]; [|reflexivity].
    destruct (lookup (layers s) (next_phy s)) eqn:L; [|reflexivity].
    apply lookup_in in L. apply (w_lnext s R) in L. lia.
  - injection S as <-. unfold remove_phy.
    unfold attachments at 1. cbn [layers with_tables]. rewrite lookup_erase.
    fold (attachments (unregister_all s k) l d). rewrite (N.eqb_sym l k). destruct (N.eqb_spec k l) as [->|NE]; [reflexivity|].
    change (attachments (unregister_all s k) l d = attachments s l d).
    rewrite unregister_all_attachments. now rewrite (proj2 (N.eqb_neq k l) NE).
  - injection S as <-. apply register_attachments.
  - injection S as <-. apply unregister_attachments.
  - destruct (lookup (devices s) e); injection S as <-; reflexivity.
  - injection S as <-. reflexivity.
  - injection S as <-.
    change (attachments (with_tables ?x (layers ?x) ?y) ?p ?q) with (attachments x p q).
    rewrite unregister_alls_attachments. destruct (mem l (keys (layers s))) eqn:M; [reflexivity|].
    apply mem_false in M. now apply no_layer_attachments.
Qed.

Lemma registers_keys d ls : forall s, keys (devices (fold_left (fun s l => register s l d) ls s)) = keys (devices s).
Proof. induction ls as [|l ls IH]; intros s; [reflexivity|]. cbn [fold_left]. rewrite IH. apply register_keys. Qed.
Lemma step_present s o s' : reachable s -> step s o = Some s' -> forall d, present s' d <-> present_after s o d.
Proof.
  intros R S d. apply reachable_wf in R.
  assert (ADD : forall a, present (add_device s a) d <-> present s d \/ d = next_dev s).
  { intros a. unfold present, add_device. cbn [devices]. rewrite in_keys_put. tauto. }
  unfold present_after.
  destruct o as [a|a ty|a|e|ty|k|e k|e k|e a|b|]; cbn [step] in S.
  - injection S as <-. apply ADD.
  - injection S as <-. unfold present at 1. rewrite registers_keys. apply ADD.
  - destruct (generate s); [|discriminate]. injection S as <-. unfold present at 1. rewrite registers_keys. apply ADD.
  - injection S as <-. unfold present, remove_device. cbn [devices with_tables].
    rewrite in_keys_erase, (proj2 (unregisters_keys _ _ _)). reflexivity.
  - injection S as <-. reflexivity.
  - injection S as <-. unfold present, remove_phy. cbn [devices with_tables]. now rewrite (proj1 (proj2 (unregister_all_keys s k))).
  - injection S as <-. unfold present. now rewrite (proj1 (proj2 (register_keys _ _ _))).
  - injection S as <-. unfold present. now rewrite (proj1 (proj2 (unregister_keys _ _ _))).
  - destruct (lookup (devices s) e) eqn:L; injection S as <-; [|reflexivity]. unfold present. cbn [devices with_tables].
    rewrite in_keys_put. split; [intros [->|K]; [exact (lookup_in _ _ _ L)|exact K]|tauto].
  - injection S as <-. reflexivity.
  - injection S as <-. reflexivity.
Qed.
