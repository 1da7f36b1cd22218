From Verif Require Import Prelude Table PhyModel PhyModelSpec.
Open Scope N_scope.
Ltac Zify.zify_post_hook ::= Z.div_mod_to_equations.

(** ** Generated addresses (C19) *)

Definition used_in (used : list (list N)) (a : list N) : bool := existsb (list_eqb a) used.
Lemma used_in_spec used a : used_in used a = true <-> In a used.
Proof.
  unfold used_in. rewrite existsb_exists. split.
  - intros (x & Hx & E). apply list_eqb_eq in E. now subst.
  - intros H. exists a. split; [exact H|apply list_eqb_refl].
Qed.

Lemma first_unused_some p used f : forall b a, first_unused p used f b = Some a ->
  exists k, b <= k < b + N.of_nat f /\ a = candidate p k /\ ~ In a used /\
  forall j, b <= j < k -> In (candidate p j) used.
Proof.
  induction f as [|f IH]; intros b a; cbn [first_unused]; [discriminate|].
  fold (used_in used (candidate p b)). destruct (used_in used (candidate p b)) eqn:U.
  - intros H. apply IH in H as (k & R & E & NU & Mn). exists k. split; [lia|]. split; [exact E|].
    split; [exact NU|]. intros j Hj. destruct (N.eq_dec j b) as [->|]; [now apply used_in_spec|apply Mn; lia].
  - intros [= <-]. exists b. split; [lia|]. split; [reflexivity|]. split; [|intros; lia].
    intros K. apply used_in_spec in K. congruence.
Qed.
Lemma first_unused_none p used f : forall b, first_unused p used f b = None ->
  forall k, b <= k < b + N.of_nat f -> In (candidate p k) used.
Proof.
  induction f as [|f IH]; intros b; cbn [first_unused]; [intros; lia|].
  fold (used_in used (candidate p b)). destruct (used_in used (candidate p b)) eqn:U; [|discriminate].
  intros H k Hk. destruct (N.eq_dec k b) as [->|]; [now apply used_in_spec|]. apply (IH _ H). lia.
Qed.

Lemma scan_some p used n a : first_unused p used (N.to_nat n) 0 = Some a ->
  exists k, k < n /\ a = candidate p k /\ ~ In a used /\ forall j, j < k -> In (candidate p j) used.
Proof.
  intros H. apply first_unused_some in H as (k & R & E & NU & Mn). rewrite N2Nat.id in R. exists k.
  repeat split; [lia|exact E|exact NU|]. intros j Hj. apply Mn. lia.
Qed.
Lemma scan_none p used n : first_unused p used (N.to_nat n) 0 = None -> forall k, k < n -> In (candidate p k) used.
Proof. intros H k Hk. apply (first_unused_none p used _ _ H). rewrite N2Nat.id. lia. Qed.

Lemma in_values {C} (m : table C) c : In c (values m) -> exists k, In (k, c) m.
Proof. unfold values. rewrite in_map_iff. intros ([k c'] & <- & H). eauto. Qed.
Lemma values_lookup {C} (m : table C) c : NoDup (keys m) -> (In c (values m) <-> exists k, lookup m k = Some c).
Proof.
  intros ND. split.
  - intros H. apply in_values in H as [k H]. exists k. now apply in_lookup_nodup.
  - intros [k H]. apply lookup_pair in H. unfold values. apply in_map_iff. now exists (k, c).
Qed.

(** ** The invariant *)

Definition memb (s : model) (l d : N) : Prop := exists ly, lookup (layers s) l = Some ly /\ In d (members ly).
Definition att (s : model) (l d : N) : Prop := exists dv, lookup (devices s) d = Some dv /\ In l (attached dv).

Record Wf (s : model) : Prop := {
  w_ldup : NoDup (keys (layers s));
  w_ddup : NoDup (keys (devices s));
  w_lnext : forall l, In l (keys (layers s)) -> l < next_phy s;
  w_dnext : forall d, In d (keys (devices s)) -> d < next_dev s;
  w_same : forall l d, memb s l d <-> att s l d;
  w_set : forall d dv, lookup (devices s) d = Some dv -> NoDup (attached dv);
}.

Lemma memb_att_present s l d : Wf s -> memb s l d -> present s d.
Proof. intros W H. apply (w_same s W) in H as (dv & H & _). eapply lookup_in; exact H. Qed.

Lemma nodup_set_insert l x : NoDup l -> NoDup (set_insert x l).
Proof.
  intros H. unfold set_insert. destruct (mem x l) eqn:E; [exact H|]. apply mem_false in E.
  clear -H E. induction l as [|y l IH]; cbn; [constructor; [easy|constructor]|].
  inversion H; subst. constructor.
  - rewrite in_app_iff. cbn. intros [K|[K|[]]]; [tauto|]. subst. apply E. now left.
  - apply IH; [assumption|]. intros K. apply E. now right.
Qed.
Lemma nodup_set_erase l x : NoDup l -> NoDup (set_erase x l).
Proof. apply NoDup_filter. Qed.

Lemma register_memb s l d : In l (keys (layers s)) -> In d (keys (devices s)) ->
  forall k e, memb (register s l d) k e <-> memb s k e \/ (k = l /\ e = d).
Proof.
  intros Hl Hd k e. apply in_lookup in Hl as [ly Hl]. apply in_lookup in Hd as [dv Hd].
  unfold register, memb. rewrite Hl, Hd. cbn [layers with_tables]. rewrite lookup_put.
  destruct (N.eqb_spec k l) as [->|N].
  - split.
    + intros (x & [= <-] & H). cbn in H. rewrite in_app_iff in H. cbn in H.
      destruct H as [H|[<-|[]]]; [left; eauto|auto].
    + intros [(x & E & H)|[_ ->]]; (eexists; split; [reflexivity|]); cbn; rewrite in_app_iff; cbn; [|auto].
      rewrite Hl in E. injection E as <-. auto.
  - split; [auto|]. intros [H|[? _]]; [exact H|congruence].
Qed.
Lemma register_att s l d : In l (keys (layers s)) -> In d (keys (devices s)) ->
  forall k e, att (register s l d) k e <-> att s k e \/ (k = l /\ e = d).
Proof.
  intros Hl Hd k e. apply in_lookup in Hl as [ly Hl]. apply in_lookup in Hd as [dv Hd].
  unfold register, att. rewrite Hl, Hd. cbn [devices with_tables]. rewrite lookup_put.
  destruct (N.eqb_spec e d) as [->|N].
  - split.
    + intros (x & [= <-] & H). cbn in H. rewrite in_set_insert in H.
      destruct H as [->|H]; [auto|left; eauto].
    + intros [(x & E & H)|[-> _]]; (eexists; split; [reflexivity|]); cbn; rewrite in_set_insert; [|auto].
      rewrite Hd in E. injection E as <-. auto.
  - split; [auto|]. intros [H|[_ ?]]; [exact H|congruence].
Qed.

Lemma register_keys s l d : keys (layers (register s l d)) = keys (layers s) /\
  keys (devices (register s l d)) = keys (devices s) /\
  next_phy (register s l d) = next_phy s /\ next_dev (register s l d) = next_dev s /\ prefix (register s l d) = prefix s.
Proof.
  unfold register. destruct (lookup (layers s) l) as [ly|] eqn:E1; [|auto].
  destruct (lookup (devices s) d) as [dv|] eqn:E2; [|auto]. cbn [layers devices with_tables next_phy next_dev prefix].
  rewrite !keys_put_in by (eapply lookup_in; eassumption). auto.
Qed.

Lemma wf_register s l d : Wf s -> Wf (register s l d).
Proof.
  intros W. destruct (register_keys s l d) as (K1 & K2 & K3 & K4 & _).
  constructor; rewrite ?K1, ?K2, ?K3, ?K4; try apply W.
  - intros k e. destruct (lookup (layers s) l) as [ly|] eqn:E1; [|unfold register; rewrite E1; apply W].
    destruct (lookup (devices s) d) as [dv|] eqn:E2; [|unfold register; rewrite E1, E2; apply W].
    apply lookup_in in E1. apply lookup_in in E2. rewrite register_memb, register_att by assumption.
    now rewrite (w_same s W).
  - intros e dv. unfold register. destruct (lookup (layers s) l); [|apply W].
    destruct (lookup (devices s) d) as [dv0|] eqn:E; [|apply W]. cbn [devices with_tables]. rewrite lookup_put.
    destruct (e =? d); [|apply W]. intros [= <-]. cbn. apply nodup_set_insert. eapply (w_set s W); exact E.
Qed.

Lemma wf_registers d ls : forall s, Wf s -> Wf (fold_left (fun s l => register s l d) ls s).
Proof. induction ls as [|l ls IH]; intros s W; [exact W|]. apply IH, wf_register, W. Qed.

Lemma forget_keys ds d l : keys (forget ds d l) = keys ds.
Proof.
  unfold forget. destruct (lookup ds d) eqn:E; [|reflexivity]. apply keys_put_in. eapply lookup_in; exact E.
Qed.
Lemma forget_lookup ds d l e : lookup (forget ds d l) e =
  if e =? d then option_map (fun dv => {| addr := addr dv; attached := set_erase l (attached dv) |}) (lookup ds d)
  else lookup ds e.
Proof.
  unfold forget. destruct (lookup ds d) eqn:E.
  - rewrite lookup_put. destruct (e =? d); [reflexivity|reflexivity].
  - destruct (N.eqb_spec e d) as [->|]; [exact E|reflexivity].
Qed.
Lemma forget_in ds d l k e : (exists dv, lookup (forget ds d l) e = Some dv /\ In k (attached dv)) <->
  (exists dv, lookup ds e = Some dv /\ In k (attached dv)) /\ ~ (k = l /\ e = d).
Proof.
  rewrite forget_lookup. destruct (N.eqb_spec e d) as [->|N].
  - destruct (lookup ds d) as [dv|]; cbn.
    + split.
      * intros (x & [= <-] & H). cbn in H. apply in_set_erase in H as [H1 H2]. split; [eauto|]. tauto.
      * intros ((x & [= <-] & H) & K). eexists. split; [reflexivity|]. cbn. apply in_set_erase. split; [exact H|tauto].
    + split; [intros (? & ? & _); discriminate|intros ((? & ? & _) & _); discriminate].
  - split; [intros H; split; [exact H|tauto]|tauto].
Qed.
Lemma forget_set ds d l : (forall e dv, lookup ds e = Some dv -> NoDup (attached dv)) ->
  forall e dv, lookup (forget ds d l) e = Some dv -> NoDup (attached dv).
Proof.
  intros H e dv. rewrite forget_lookup. destruct (e =? d); [|apply H].
  destruct (lookup ds d) as [x|] eqn:E; [|discriminate]. cbn. intros [= <-]. cbn. apply nodup_set_erase. eapply H; exact E.
Qed.

Lemma unregister_keys s l d : keys (layers (unregister s l d)) = keys (layers s) /\
  keys (devices (unregister s l d)) = keys (devices s) /\
  next_phy (unregister s l d) = next_phy s /\ next_dev (unregister s l d) = next_dev s /\
  prefix (unregister s l d) = prefix s.
Proof.
  unfold unregister. destruct (lookup (layers s) l) as [ly|] eqn:E1; [|auto].
  destruct (mem d (members ly)); [|auto]. cbn [layers devices with_tables next_phy next_dev prefix]. rewrite forget_keys.
  rewrite keys_put_in by (eapply lookup_in; eassumption). auto.
Qed.
Lemma unregister_memb s l d k e : memb (unregister s l d) k e <-> memb s k e /\ ~ (k = l /\ e = d).
Proof.
  unfold unregister, memb. destruct (lookup (layers s) l) as [ly|] eqn:E1.
  - destruct (mem d (members ly)) eqn:M.
    + cbn [layers with_tables]. rewrite lookup_put. destruct (N.eqb_spec k l) as [->|N].
      * split.
        -- intros (x & [= <-] & H). cbn in H. apply in_set_erase in H as [H1 H2]. split; [eauto|tauto].
        -- intros ((x & E & H) & K). rewrite E1 in E. injection E as <-. eexists. split; [reflexivity|]. cbn.
           apply in_set_erase. split; [exact H|tauto].
      * split; [intros H; split; [exact H|tauto]|tauto].
    + apply mem_false in M. split; [|tauto]. intros (x & E & H). split; [eauto|]. intros [-> ->].
      rewrite E1 in E. injection E as <-. tauto.
  - split; [|tauto]. intros (x & E & H). split; [eauto|]. intros [-> _]. congruence.
Qed.
Lemma wf_unregister s l d : Wf s -> Wf (unregister s l d).
Proof.
  intros W. destruct (unregister_keys s l d) as (K1 & K2 & K3 & K4 & _).
  constructor; rewrite ?K1, ?K2, ?K3, ?K4; try apply W.
  - intros k e. rewrite unregister_memb, (w_same s W).
    unfold unregister. destruct (lookup (layers s) l) as [ly|] eqn:E1.
    + destruct (mem d (members ly)) eqn:M.
      * unfold att. cbn [devices with_tables]. rewrite forget_in. tauto.
      * apply mem_false in M. split; [tauto|]. intros H. split; [exact H|]. intros [-> ->].
        apply (w_same s W) in H as (x & E & H). rewrite E1 in E. injection E as <-. tauto.
    + split; [tauto|]. intros H. split; [exact H|]. intros [-> ->].
      apply (w_same s W) in H as (x & E & H). congruence.
  - unfold unregister. destruct (lookup (layers s) l) as [ly|]; [|apply W].
    destruct (mem d (members ly)); [|apply W]. cbn [devices with_tables]. apply forget_set, W.
Qed.
Lemma unregisters_memb d ls : forall s k e,
  memb (fold_left (fun s l => unregister s l d) ls s) k e <-> memb s k e /\ ~ (In k ls /\ e = d).
Proof.
  induction ls as [|l ls IH]; intros s k e; cbn; [tauto|]. rewrite IH, unregister_memb.
  assert (l = k <-> k = l) by (split; congruence). tauto.
Qed.
Lemma wf_unregisters d ls : forall s, Wf s -> Wf (fold_left (fun s l => unregister s l d) ls s).
Proof. induction ls as [|l ls IH]; intros s W; [exact W|]. apply IH, wf_unregister, W. Qed.
Lemma unregisters_keys d ls : forall s, keys (layers (fold_left (fun s l => unregister s l d) ls s)) = keys (layers s) /\
  keys (devices (fold_left (fun s l => unregister s l d) ls s)) = keys (devices s).
Proof.
  induction ls as [|l ls IH]; intros s; [auto|]. cbn [fold_left]. destruct (IH (unregister s l d)) as [-> ->].
  destruct (unregister_keys s l d) as (-> & -> & _). auto.
Qed.

Lemma forgets_in l ms : forall ds k e,
  (exists dv, lookup (fold_left (fun ds d => forget ds d l) ms ds) e = Some dv /\ In k (attached dv)) <->
  (exists dv, lookup ds e = Some dv /\ In k (attached dv)) /\ ~ (k = l /\ In e ms).
Proof.
  induction ms as [|m ms IH]; intros ds k e; cbn; [tauto|]. rewrite IH, forget_in.
  assert (m = e <-> e = m) by (split; congruence). tauto.
Qed.
Lemma forgets_keys l ms : forall ds, keys (fold_left (fun ds d => forget ds d l) ms ds) = keys ds.
Proof. induction ms as [|m ms IH]; intros ds; [reflexivity|]. cbn [fold_left]. now rewrite IH, forget_keys. Qed.
Lemma forgets_set l ms : forall ds, (forall e dv, lookup ds e = Some dv -> NoDup (attached dv)) ->
  forall e dv, lookup (fold_left (fun ds d => forget ds d l) ms ds) e = Some dv -> NoDup (attached dv).
Proof. induction ms as [|m ms IH]; intros ds H; [exact H|]. cbn. apply IH, forget_set, H. Qed.

Lemma unregister_all_keys s l : keys (layers (unregister_all s l)) = keys (layers s) /\
  keys (devices (unregister_all s l)) = keys (devices s) /\
  next_phy (unregister_all s l) = next_phy s /\ next_dev (unregister_all s l) = next_dev s.
Proof.
  unfold unregister_all. destruct (lookup (layers s) l) as [ly|] eqn:E1; [|auto].
  cbn [layers devices with_tables next_phy next_dev prefix]. rewrite forgets_keys, keys_put_in by (eapply lookup_in; eassumption). auto.
Qed.
Lemma unregister_all_memb s l k e : memb (unregister_all s l) k e <-> memb s k e /\ k <> l.
Proof.
  unfold unregister_all, memb. destruct (lookup (layers s) l) as [ly|] eqn:E1.
  - cbn [layers with_tables]. rewrite lookup_put. destruct (N.eqb_spec k l) as [->|N].
    + split; [intros (x & [= <-] & []) | tauto].
    + tauto.
  - split; [|tauto]. intros (x & E & H). split; [eauto|]. congruence.
Qed.
Lemma wf_unregister_all s l : Wf s -> Wf (unregister_all s l).
Proof.
  intros W. destruct (unregister_all_keys s l) as (K1 & K2 & K3 & K4).
  constructor; rewrite ?K1, ?K2, ?K3, ?K4; try apply W.
  - intros k e. rewrite unregister_all_memb, (w_same s W).
    unfold unregister_all. destruct (lookup (layers s) l) as [ly|] eqn:E1.
    + unfold att. cbn [devices with_tables]. rewrite forgets_in. split.
      * intros [H N]. split; [exact H|tauto].
      * intros [H N]. split; [exact H|]. intros ->. apply N. split; [reflexivity|].
        apply (w_same s W) in H as (x & E & H). rewrite E1 in E. injection E as <-. exact H.
    + split; [tauto|]. intros H. split; [exact H|]. intros ->.
      apply (w_same s W) in H as (x & E & H). congruence.
  - unfold unregister_all. destruct (lookup (layers s) l) as [ly|]; [|apply W].
    cbn [devices with_tables]. apply forgets_set, W.
Qed.
Lemma unregister_alls_memb ls : forall s k e,
  memb (fold_left unregister_all ls s) k e <-> memb s k e /\ ~ In k ls.
Proof.
  induction ls as [|l ls IH]; intros s k e; cbn; [tauto|]. rewrite IH, unregister_all_memb.
  assert (l = k <-> k = l) by (split; congruence). tauto.
Qed.
Lemma wf_unregister_alls ls : forall s, Wf s -> Wf (fold_left unregister_all ls s).
Proof. induction ls as [|l ls IH]; intros s W; [exact W|]. apply IH, wf_unregister_all, W. Qed.

Lemma wf_add_device s a : Wf s -> Wf (add_device s a).
Proof.
  intros W. assert (F : ~ In (next_dev s) (keys (devices s))) by (intros K; apply (w_dnext s W) in K; lia).
  constructor; cbn [layers devices add_device next_phy next_dev prefix]; try apply W.
  - apply nodup_put, W.
  - intros d. rewrite in_keys_put. intros [->|K]; [lia|]. apply (w_dnext s W) in K. lia.
  - intros l d. change (memb _ l d) with (memb s l d). rewrite (w_same s W). unfold att. cbn [devices add_device with_tables].
    rewrite lookup_put. destruct (N.eqb_spec d (next_dev s)) as [->|]; [|reflexivity]. split.
    + intros (x & E & _). apply lookup_in in E. tauto.
    + intros (x & [= <-] & []).
  - intros d dv. rewrite lookup_put. destruct (d =? next_dev s); [intros [= <-]; constructor|apply W].
Qed.

Lemma wf_step s o s' : Wf s -> step s o = Some s' -> Wf s'.
Proof.
  intros W. destruct o; cbn [step].
  - intros [= <-]. now apply wf_add_device.
  - intros [= <-]. now apply wf_registers, wf_add_device.
  - destruct (generate s) as [g|]; [|discriminate].
    intros [= <-]. now apply wf_registers, wf_add_device.
  - intros [= <-]. unfold remove_device. pose proof (unregisters_memb d (keys (layers s)) s) as M.
    destruct (unregisters_keys d (keys (layers s)) s) as [K1 K2].
    pose proof (wf_unregisters d (keys (layers s)) s W) as W1.
    set (s1 := fold_left _ _ s) in *.
    assert (NM : forall l, ~ memb s1 l d).
    { intros l H. pose proof H as H'. apply M in H as [H N]. apply N. split; [|reflexivity].
      destruct H' as (ly & E & _). rewrite <- K1. eapply lookup_in; exact E. }
    constructor; cbn [layers devices with_tables next_phy next_dev]; try apply W1.
    + apply nodup_erase, W1.
    + intros e. rewrite in_keys_erase. intros [H _]. now apply (w_dnext s1 W1).
    + intros l e. change (memb _ l e) with (memb s1 l e). rewrite (w_same s1 W1). unfold att. cbn [devices add_device with_tables].
      rewrite lookup_erase. destruct (N.eqb_spec e d) as [->|]; [|reflexivity].
      split; [|intros (? & ? & _); discriminate]. intros H. apply (w_same s1 W1) in H. now apply NM in H.
    + intros e dv. rewrite lookup_erase. destruct (e =? d); [discriminate|apply W1].
  - intros [= <-]. assert (F : ~ In (next_phy s) (keys (layers s))) by (intros K; apply (w_lnext s W) in K; lia).
    constructor; cbn [layers devices add_phy next_phy next_dev prefix]; try apply W.
    + apply nodup_put, W.
    + intros l. rewrite in_keys_put. intros [->|K]; [lia|]. apply (w_lnext s W) in K. lia.
    + intros l d. change (att _ l d) with (att s l d). rewrite <- (w_same s W). unfold memb. cbn [layers add_phy with_tables].
      rewrite lookup_put. destruct (N.eqb_spec l (next_phy s)) as [->|]; [|reflexivity]. split.
      * intros (x & [= <-] & []).
      * intros (x & E & _). apply lookup_in in E. tauto.
  - intros [= <-]. unfold remove_phy. pose proof (wf_unregister_all s l W) as W1.
    pose proof (unregister_all_memb s l) as M. set (s1 := unregister_all s l) in *.
    constructor; cbn [layers devices with_tables next_phy next_dev]; try apply W1.
    + apply nodup_erase, W1.
    + intros k. rewrite in_keys_erase. intros [H _]. now apply (w_lnext s1 W1).
    + intros k e. change (att _ k e) with (att s1 k e). rewrite <- (w_same s1 W1). unfold memb at 1. cbn [layers add_phy with_tables].
      rewrite lookup_erase. destruct (N.eqb_spec k l) as [->|]; [|reflexivity].
      split; [intros (? & ? & _); discriminate|]. intros H. apply M in H. tauto.
  - intros [= <-]. now apply wf_register.
  - intros [= <-]. now apply wf_unregister.
  - destruct (lookup (devices s) d) as [dv|] eqn:E; intros [= <-]; [|exact W].
    constructor; cbn [layers devices with_tables next_phy next_dev]; try apply W.
    + apply nodup_put, W.
    + intros e. rewrite in_keys_put. intros [->|K]; [apply lookup_in in E|]; now apply (w_dnext s W).
    + intros l e. change (memb _ l e) with (memb s l e). rewrite (w_same s W). unfold att. cbn [devices add_device with_tables].
      rewrite lookup_put. destruct (N.eqb_spec e d) as [->|]; [|reflexivity]. split.
      * intros (x & E2 & H). rewrite E in E2. injection E2 as <-. eexists. split; [reflexivity|exact H].
      * intros (x & [= <-] & H). eauto.
    + intros e x. rewrite lookup_put. destruct (e =? d); [|apply W]. intros [= <-]. cbn. eapply (w_set s W); exact E.
  - intros [= <-]. destruct W as [W1 W2 W3 W4 W5 W6]. constructor; assumption.
  - intros [= <-]. pose proof (wf_unregister_alls (keys (layers s)) s W) as W1.
    pose proof (unregister_alls_memb (keys (layers s)) s) as M. set (s1 := fold_left _ _ s) in *.
    assert (K1 : keys (layers s1) = keys (layers s)).
    { unfold s1. generalize (keys (layers s)) at 1. intros ls. clear. revert s.
      induction ls as [|l ls IH]; intros s; [reflexivity|]. cbn [fold_left]. rewrite IH. apply unregister_all_keys. }
    constructor; cbn [layers devices with_tables next_phy next_dev keys map]; try apply W1.
    + constructor.
    + intros d [].
    + intros l d. change (memb _ l d) with (memb s1 l d). split.
      * intros H. pose proof H as (ly & E & _). apply M in H as [_ H]. exfalso. apply H. rewrite <- K1.
        eapply lookup_in; exact E.
      * intros (x & E & _). discriminate.
    + discriminate.
Qed.

Lemma wf_run ops : forall s s', Wf s -> run s ops = Some s' -> Wf s'.
Proof.
  induction ops as [|o ops IH]; intros s s' W; cbn; [intros [= <-]; exact W|].
  destruct (step s o) as [s1|] eqn:E; [|discriminate]. apply IH. eapply wf_step; eassumption.
Qed.
Lemma wf_init p : Wf (init p).
Proof.
  constructor; cbn; try constructor; try tauto; try discriminate.
  - intros (x & E & _). discriminate.
  - intros (x & E & _). discriminate.
Qed.
Lemma reachable_wf s : reachable s -> Wf s.
Proof. intros (p & ops & H). eapply wf_run; [apply wf_init|exact H]. Qed.

(** ** C19 *)

Lemma generated_below_unused n s a : generate_below n s = Some a -> NoDup (keys (devices s)) ->
  (forall d, address_of s d <> Some a) /\
  exists k, k < n /\ a = candidate (prefix s) k /\
  forall j, j < k -> exists d, address_of s d = Some (candidate (prefix s) j).
Proof.
  intros G ND. apply scan_some in G as (k & R & E & NU & Mn).
  split.
  - intros d K. apply NU. unfold address_of in K. destruct (lookup (devices s) d) as [dv|] eqn:L; [|discriminate].
    injection K as <-. apply in_map. apply values_lookup; [exact ND|eauto].
  - exists k. split; [exact R|]. split; [exact E|]. intros j Hj'. apply Mn in Hj'.
    apply in_map_iff in Hj' as (dv & Ea & Hj'). apply values_lookup in Hj' as [d Hj']; [|exact ND].
    exists d. unfold address_of. rewrite Hj'. cbn. now rewrite Ea.
Qed.
Lemma generate_below_hangs n s : NoDup (keys (devices s)) ->
  (generate_below n s = None <-> forall k, k < n -> exists d, address_of s d = Some (candidate (prefix s) k)).
Proof.
  intros ND. split.
  - intros G k Hk. pose proof (scan_none _ _ _ G k Hk) as H.
    apply in_map_iff in H as (dv & Ea & H). apply values_lookup in H as [d H]; [|exact ND].
    exists d. unfold address_of. rewrite H. cbn. now rewrite Ea.
  - intros H. destruct (generate_below n s) as [a|] eqn:G; [|reflexivity]. exfalso.
    destruct (generated_below_unused n s a G ND) as (NU & k & Hk & -> & _). destruct (H k Hk) as [d Hd]. now apply NU in Hd.
Qed.
Lemma generated_unused s a : reuse s = true -> generate s = Some a -> NoDup (keys (devices s)) ->
  (forall d, address_of s d <> Some a) /\
  exists k, k < 65536 /\ a = candidate (prefix s) k /\
  forall j, j < k -> exists d, address_of s d = Some (candidate (prefix s) j).
Proof. intros E. unfold generate. rewrite E. exact (generated_below_unused 65536 s a). Qed.
Lemma generate_hangs s : NoDup (keys (devices s)) ->
  (generate s = None <-> reuse s = true /\
   forall k, k < 65536 -> exists d, address_of s d = Some (candidate (prefix s) k)).
Proof.
  intros N. unfold generate. destruct (reuse s).
  - rewrite (generate_below_hangs 65536 s N). tauto.
  - split; [discriminate|]. intros [? _]. discriminate.
Qed.

Lemma register_addr s l d e : address_of (register s l d) e = address_of s e.
Proof.
  unfold register, address_of. destruct (lookup (layers s) l); [|reflexivity].
  destruct (lookup (devices s) d) as [dv|] eqn:E; [|reflexivity]. cbn [devices with_tables].
  rewrite lookup_put. destruct (N.eqb_spec e d) as [->|]; [now rewrite E|reflexivity].
Qed.
Lemma registers_addr d ls : forall s e, address_of (fold_left (fun s l => register s l d) ls s) e = address_of s e.
Proof. induction ls as [|l ls IH]; intros s e; [reflexivity|]. cbn. now rewrite IH, register_addr. Qed.

Lemma add_hci_address s s' : reachable s -> reuse s = true -> step s (AddHci None) = Some s' ->
  exists d a, ~ present s d /\ address_of s' d = Some a /\
    (exists k, k < 65536 /\ a = candidate (prefix s) k) /\
    (forall e, e <> d -> address_of s' e = address_of s e /\ address_of s' e <> Some a).
Proof.
  intros R U. apply reachable_wf in R. cbn [step]. destruct (generate s) as [a|] eqn:G; [|discriminate].
  intros [= <-]. exists (next_dev s), a. destruct (generated_unused _ _ U G (w_ddup s R)) as (NU & k & Hk & E' & _).
  assert (E : forall e, address_of (add_device s a) e = if e =? next_dev s then Some a else address_of s e).
  { intros e. unfold address_of. cbn. rewrite lookup_put. now destruct (e =? next_dev s). }
  split; [intros K; apply (w_dnext s R) in K; lia|].
  rewrite registers_addr, E, N.eqb_refl. split; [reflexivity|]. split; [eauto|].
  intros e Ne. rewrite registers_addr, E. destruct (N.eqb_spec e (next_dev s)); [congruence|].
  split; [reflexivity|apply NU].
Qed.

Lemma add_hci_returns s a : reachable s ->
  (step s (AddHci a) = None <-> reuse s = true /\
   forall k, k < 65536 -> exists d, address_of s d = Some (candidate (prefix s) k)).
Proof.
  intros R. apply reachable_wf in R. rewrite <- (generate_hangs s (w_ddup s R)). cbn [step].
  destruct (generate s); split; congruence.
Qed.

Lemma no_reuse_collides : exists p ops s, run (init p) ops = Some s /\
  address_of s 0 = address_of s 1 /\ present s 0 /\ present s 1 /\
  exists a, ops = [SetReuse false; AddHci (Some a); AddHci None].
Proof.
  exists [218;76;16;222], [SetReuse false; AddHci (Some [1;0;222;16;76;218]); AddHci None].
  eexists. split; [vm_compute; reflexivity|]. split; [reflexivity|].
  split; [vm_compute; auto|]. split; [vm_compute; auto|]. eauto.
Qed.

(** ** C20 *)

Lemma times_app d a b : times d (a ++ b) = (times d a + times d b)%nat.
Proof. unfold times. now rewrite count_occ_app. Qed.
Lemma times_erase d e l : times d (set_erase e l) = if d =? e then 0%nat else times d l.
Proof.
  unfold times, set_erase. induction l as [|x l IH]; [now destruct (d =? e)|]. cbn [filter].
  destruct (N.eqb_spec x e) as [->|N]; cbn [negb].
  - rewrite IH. cbn [count_occ]. destruct (N.eqb_spec d e) as [->|N2]; [reflexivity|].
    destruct (N.eq_dec e d); [congruence|reflexivity].
  - cbn [count_occ]. rewrite IH. destruct (N.eqb_spec d e) as [->|N2].
    + destruct (N.eq_dec x e); [congruence|reflexivity].
    + reflexivity.
Qed.

Lemma is_attached_memb s l d : is_attached s l d = true <-> memb s l d.
Proof.
  unfold is_attached, attachments, memb, times. destruct (lookup (layers s) l) as [ly|].
  - rewrite negb_true_iff, Nat.eqb_neq. pose proof (count_occ_In N.eq_dec (members ly) d) as CI. split.
    + intros H. exists ly. split; [reflexivity|]. apply CI. lia.
    + intros (x & [= <-] & H). apply CI in H. lia.
  - cbn. split; [discriminate|]. intros (x & E & _). discriminate.
Qed.

Definition total (s : model) (r : N) (ls : list N) : nat :=
  fold_right (fun l n => (attachments s l r + n)%nat) 0%nat ls.

Lemma phy_eqb_eq a b : phy_eqb a b = true <-> a = b.
Proof. destruct a, b; cbn; split; congruence. Qed.

Lemma deliver_total s d ty ls : (forall l, In l ls -> In l (keys (layers s))) ->
  exists rs, deliver s d ty ls = Some rs /\
  forall r, times r rs = if r =? d then 0%nat
    else total s r (filter (fun l => match lookup (layers s) l with Some ly => phy_eqb (ltype ly) ty | None => false end) ls).
Proof.
  induction ls as [|l ls IH]; intros H.
  - exists []. split; [reflexivity|]. intros r. cbn. now destruct (r =? d).
  - destruct IH as (rs & E & C); [intros; apply H; now right|].
    assert (Hl : In l (keys (layers s))) by (apply H; now left). apply in_lookup in Hl as [ly Hl].
    cbn [deliver]. rewrite Hl, E. eexists. split; [reflexivity|]. intros r. rewrite times_app, C.
    cbn [filter]. rewrite Hl. destruct (phy_eqb (ltype ly) ty).
    + rewrite times_erase. destruct (r =? d); [reflexivity|]. cbn [total fold_right]. f_equal.
      unfold attachments. now rewrite Hl.
    + reflexivity.
Qed.

Lemma total_perm s r a b : NoDup a -> NoDup b -> (forall x, In x a <-> In x b) -> total s r a = total s r b.
Proof.
  intros Na. revert b. induction a as [|x a IH]; intros b Nb E.
  - destruct b as [|y b]; [reflexivity|]. exfalso. apply (E y). now left.
  - inversion Na as [|? ? Nx Na']; subst. assert (Hx : In x b) by (apply E; now left).
    apply in_split in Hx as (b1 & b2 & ->).
    assert (T : total s r (b1 ++ x :: b2) = (attachments s x r + total s r (b1 ++ b2))%nat).
    { clear. induction b1 as [|y b1 IH]; [reflexivity|]. cbn [app]. unfold total in *. cbn [fold_right]. rewrite IH. lia. }
    rewrite T. cbn [total fold_right]. f_equal. apply IH; [exact Na'| |].
    + eapply NoDup_remove_1; exact Nb.
    + intros y. pose proof (NoDup_remove_2 _ _ _ Nb) as N2. split.
      * intros Hy. assert (K : In y (b1 ++ x :: b2)) by (apply E; now right).
        rewrite in_app_iff in *. cbn in K. destruct K as [K|[->|K]]; auto. tauto.
      * intros Hy. assert (K : In y (x :: a)).
        { apply E. rewrite in_app_iff in *. cbn. tauto. }
        destruct K as [->|K]; [tauto|exact K].
Qed.

Lemma in_of_type s ty l : NoDup (keys (layers s)) ->
  (In l (of_type s ty) <-> exists ly, lookup (layers s) l = Some ly /\ ltype ly = ty).
Proof.
  intros ND. unfold of_type, layers_of, keys. rewrite in_map_iff. split.
  - intros ([k ly] & <- & H). apply filter_In in H as [H E]. cbn in *. exists ly.
    split; [now apply in_lookup_nodup|]. now apply phy_eqb_eq.
  - intros (ly & E & T). exists (l, ly). split; [reflexivity|]. apply filter_In. split; [now apply lookup_pair|].
    now apply phy_eqb_eq.
Qed.
Lemma nodup_of_type s ty : NoDup (keys (layers s)) -> NoDup (of_type s ty).
Proof.
  unfold of_type, layers_of, keys. generalize (layers s). intros m. induction m as [|[k ly] m IH]; cbn; [constructor|].
  intros N. inversion N as [|? ? N1 N2]; subst. destruct (phy_eqb (ltype ly) ty); [|now apply IH].
  cbn. constructor; [|now apply IH]. intros K. apply N1. apply in_map_iff in K as (e & <- & K).
  apply filter_In in K as [K _]. now apply in_map.
Qed.

Lemma send_exact s d ty : reachable s -> present s d ->
  exists rs, send s d ty = Some rs /\
  forall r, times r rs = if r =? d then 0%nat else total s r (shared s d ty).
Proof.
  intros R P. apply reachable_wf in R. apply in_lookup in P as [dv Hd]. unfold send. rewrite Hd.
  assert (A : forall l, In l (attached dv) <-> memb s l d).
  { intros l. rewrite (w_same s R). unfold att. rewrite Hd. split; [eauto|]. now intros (x & [= <-] & H). }
  destruct (deliver_total s d ty (attached dv)) as (rs & E & C).
  { intros l H. apply A in H as (ly & E & _). eapply lookup_in; exact E. }
  exists rs. split; [exact E|]. intros r. rewrite C. destruct (r =? d); [reflexivity|].
  apply total_perm.
  - apply NoDup_filter. eapply (w_set s R); exact Hd.
  - apply NoDup_filter. apply nodup_of_type, R.
  - intros l. unfold shared. rewrite !filter_In, in_of_type by apply R. rewrite is_attached_memb, A.
    split.
    + intros [H1 H2]. split; [|exact H1]. destruct (lookup (layers s) l) as [ly|]; [|discriminate].
      exists ly. split; [reflexivity|now apply phy_eqb_eq].
    + intros [(ly & E1 & E2) H]. split; [exact H|]. rewrite E1. now apply phy_eqb_eq.
Qed.

(** Members are listed once after a careful history. *)
Definition once (s : model) : Prop := forall l ly, lookup (layers s) l = Some ly -> NoDup (members ly).

Lemma once_register s l d : once s -> ~ memb s l d -> once (register s l d).
Proof.
  intros O N. unfold register. destruct (lookup (layers s) l) as [ly|] eqn:E; [|exact O].
  destruct (lookup (devices s) d); [|exact O]. intros k x. cbn [layers with_tables]. rewrite lookup_put.
  destruct (k =? l); [|apply O]. intros [= <-]. cbn.
  assert (In d (members ly) -> False) by (intros K; apply N; exists ly; auto).
  apply O in E. clear -E H. induction (members ly) as [|y m IH]; cbn; [constructor; [easy|constructor]|].
  inversion E; subst. constructor.
  - rewrite in_app_iff. cbn. intros [K|[K|[]]]; [tauto|]. subst. apply H. now left.
  - apply IH; [assumption|]. intros K. apply H. now right.
Qed.
Lemma registers_other d ls : forall s k e, e <> d -> memb (fold_left (fun s l => register s l d) ls s) k e <-> memb s k e.
Proof.
  induction ls as [|l ls IH]; intros s k e N; [reflexivity|]. cbn. rewrite IH by exact N.
  unfold register, memb. destruct (lookup (layers s) l) as [ly|] eqn:E; [|reflexivity].
  destruct (lookup (devices s) d); [|reflexivity]. cbn [layers with_tables]. rewrite lookup_put.
  destruct (N.eqb_spec k l) as [->|]; [|reflexivity]. split.
  - intros (x & [= <-] & H). cbn in H. rewrite in_app_iff in H. cbn in H. destruct H as [H|[H|[]]]; [eauto|congruence].
  - intros (x & Ex & H). rewrite E in Ex. injection Ex as <-. eexists. split; [reflexivity|]. cbn.
    rewrite in_app_iff. auto.
Qed.
Lemma once_registers d ls : forall s, NoDup ls -> once s -> (forall l, In l ls -> ~ memb s l d) ->
  once (fold_left (fun s l => register s l d) ls s).
Proof.
  induction ls as [|l ls IH]; intros s N O H; [exact O|]. inversion N; subst. cbn. apply IH; [assumption| |].
  - apply once_register; [exact O|]. apply H. now left.
  - intros k Hk (x & E & K). apply (H k (or_intror Hk)). unfold register in E.
    destruct (lookup (layers s) l) as [ly|] eqn:E1; [|exists x; auto].
    destruct (lookup (devices s) d); [|exists x; auto]. cbn [layers with_tables] in E. rewrite lookup_put in E.
    destruct (N.eqb_spec k l) as [->|]; [tauto|]. exists x; auto.
Qed.
Lemma once_unregister s l d : once s -> once (unregister s l d).
Proof.
  intros O. unfold unregister. destruct (lookup (layers s) l) as [ly|] eqn:E; [|exact O].
  destruct (mem d (members ly)); [|exact O]. intros k x. cbn [layers with_tables]. rewrite lookup_put.
  destruct (k =? l); [|apply O]. intros [= <-]. cbn. apply nodup_set_erase. eapply O; exact E.
Qed.
Lemma once_unregister_all s l : once s -> once (unregister_all s l).
Proof.
  intros O. unfold unregister_all. destruct (lookup (layers s) l) as [ly|]; [|exact O].
  intros k x. cbn [layers with_tables]. rewrite lookup_put. destruct (k =? l); [|apply O]. intros [= <-]. constructor.
Qed.

Lemma nodup_layers_of s ty : NoDup (keys (layers s)) -> NoDup (layers_of s ty).
Proof.
  unfold layers_of, keys. generalize (layers s). intros m. induction m as [|[k ly] m IH]; cbn; [constructor|].
  intros N. inversion N as [|? ? N1 N2]; subst. destruct (match ty with Some t => phy_eqb (ltype ly) t | None => true end); [|now apply IH].
  cbn. constructor; [|now apply IH]. intros K. apply N1. apply in_map_iff in K as (e & <- & K).
  apply filter_In in K as [K _]. now apply in_map.
Qed.

Lemma once_step s o s' : Wf s -> once s -> careful s o = true -> step s o = Some s' -> once s'.
Proof.
  intros W O C. destruct o; cbn [step].
  - intros [= <-]. exact O.
  - intros [= <-]. apply once_registers; [apply nodup_layers_of, W|exact O|].
    intros l _ (ly & E & H). assert (K : present s (next_dev s)) by (eapply memb_att_present; [exact W|exists ly; eauto]).
    apply (w_dnext s W) in K. lia.
  - destruct (generate s) as [g|]; [|discriminate].
    intros [= <-]. apply once_registers; [apply nodup_layers_of, W|exact O|].
    intros l _ (ly & E & H). assert (K : present s (next_dev s)) by (eapply memb_att_present; [exact W|exists ly; eauto]).
    apply (w_dnext s W) in K. lia.
  - intros [= <-]. unfold remove_device. intros l ly. cbn [layers with_tables].
    revert l ly. fold (once (fold_left (fun s l => unregister s l d) (keys (layers s)) s)).
    generalize (keys (layers s)). clear -O. intros ls. revert s O.
    induction ls as [|l ls IH]; intros s O; [exact O|]. apply IH, once_unregister, O.
  - intros [= <-]. intros l ly. cbn [layers add_phy]. rewrite lookup_put.
    destruct (l =? next_phy s); [intros [= <-]; constructor|apply O].
  - intros [= <-]. unfold remove_phy. intros k ly. cbn [layers with_tables]. rewrite lookup_erase.
    destruct (k =? l); [discriminate|]. now apply once_unregister_all.
  - intros [= <-]. cbn in C. apply negb_true_iff in C. apply once_register; [exact O|].
    intros K. apply is_attached_memb in K. congruence.
  - intros [= <-]. now apply once_unregister.
  - destruct (lookup (devices s) d); intros [= <-]; exact O.
  - intros [= <-]. exact O.
  - intros [= <-]. intros l ly. cbn [layers with_tables].
    revert l ly. fold (once (fold_left unregister_all (keys (layers s)) s)).
    generalize (keys (layers s)). clear -O. intros ls. revert s O.
    induction ls as [|l ls IH]; intros s O; [exact O|]. apply IH, once_unregister_all, O.
Qed.
Lemma once_run ops : forall s s', Wf s -> once s -> careful_run s ops = true -> run s ops = Some s' -> once s'.
Proof.
  induction ops as [|o ops IH]; intros s s' W O; cbn; [intros _ [= <-]; exact O|].
  intros C. apply andb_true_iff in C as [C1 C2]. destruct (step s o) as [s1|] eqn:E; [|discriminate].
  apply IH; [eapply wf_step; eassumption|eapply once_step; eassumption|exact C2].
Qed.

Lemma send_once p ops s d ty l : run (init p) ops = Some s -> careful_run (init p) ops = true ->
  present s d -> of_type s ty = [l] ->
  exists rs, send s d ty = Some rs /\
  forall r, times r rs = if negb (r =? d) && is_attached s l d && is_attached s l r then 1%nat else 0%nat.
Proof.
  intros Rn C P T. assert (R : reachable s) by (exists p, ops; exact Rn).
  assert (O : once s) by (eapply once_run; [apply wf_init| |exact C|exact Rn]; intros ? ? E; discriminate).
  destruct (send_exact s d ty R P) as (rs & E & Q). exists rs. split; [exact E|]. intros r. rewrite Q.
  destruct (r =? d); [reflexivity|]. cbn [negb andb]. unfold shared. rewrite T. cbn [filter].
  destruct (is_attached s l d); [|reflexivity]. cbn [andb total fold_right].
  unfold is_attached, attachments, times. destruct (lookup (layers s) l) as [ly|] eqn:L; [|reflexivity].
  pose proof (proj1 (NoDup_count_occ N.eq_dec (members ly)) (O _ _ L) r) as K.
  destruct (count_occ N.eq_dec (members ly) r) as [|[|]]; cbn; lia.
Qed.

Lemma never_dangling s : reachable s ->
  (forall d dv l, lookup (devices s) d = Some dv -> In l (attached dv) -> In l (keys (layers s))) /\
  (forall l ly d, lookup (layers s) l = Some ly -> In d (members ly) -> present s d).
Proof.
  intros R. apply reachable_wf in R. split.
  - intros d dv l L H. assert (A : att s l d) by (exists dv; auto).
    apply (w_same s R) in A as (ly & E & _). eapply lookup_in; exact E.
  - intros l ly d L H. eapply memb_att_present; [exact R|exists ly; eauto].
Qed.

(** The default topology: one layer per type, every HCI device on both. *)
Definition demo_ops : list op :=
  [AddPhy LowEnergy; AddPhy BrEdr; AddHci None; AddHci None; AddHci None; AddLinkLayer [1;2;3;4;5;6] BrEdr;
   RemoveFromPhy 2 0; RemoveDevice 1].
Example demo_send : exists s, run (init [218;76;16;222]) demo_ops = Some s /\ careful_run (init [218;76;16;222]) demo_ops = true /\
  present s 0 /\ of_type s BrEdr = [1] /\ send s 0 BrEdr = Some [2; 3] /\ send s 0 LowEnergy = Some [] /\
  address_of s 2 = Some [2; 0; 222; 16; 76; 218].
Proof.
  eexists. split; [vm_compute; reflexivity|]. split; [vm_compute; reflexivity|].
  split; [vm_compute; auto|]. repeat split.
Qed.

Lemma twice_attached : exists s, reachable s /\ present s 0 /\ of_type s LowEnergy = [0] /\
  send s 0 LowEnergy = Some [1; 1].
Proof.
  destruct (run (init [0;0;0;0]) [AddPhy LowEnergy; AddHci (Some [1]); AddHci (Some [2]); AddToPhy 1 0]) as [s|] eqn:E; [|discriminate E].
  exists s. split; [eexists _, _; exact E|]. vm_compute in E. injection E as <-.
  split; [vm_compute; auto|]. split; reflexivity.
Qed.
Lemma two_layers : exists p ops s, run (init p) ops = Some s /\ careful_run (init p) ops = true /\ present s 0 /\
  send s 0 LowEnergy = Some [1; 1].
Proof.
  exists [0;0;0;0], [AddPhy LowEnergy; AddPhy LowEnergy; AddHci (Some [1]); AddHci (Some [2])].
  eexists. split; [vm_compute; reflexivity|]. split; [reflexivity|]. split; [vm_compute; auto|]. reflexivity.
Qed.
Lemma unshared_layers : exists p ops s, run (init p) ops = Some s /\ careful_run (init p) ops = true /\
  is_attached s 0 0 = true /\ is_attached s 1 1 = true /\ of_type s LowEnergy = [0; 1] /\
  send s 0 LowEnergy = Some [].
Proof.
  exists [0;0;0;0], [AddPhy LowEnergy; AddHci (Some [1]); AddPhy LowEnergy; AddDevice [2]; AddToPhy 1 1].
  eexists. split; [vm_compute; reflexivity|]. repeat split; vm_compute; auto.
Qed.

(** ** The timer *)

Definition timer_run (ops : list timer_op) : timer := fold_left timer_step ops timer_init.

(** StartTimer is only called when the timer is stopped. *)
Fixpoint alternating (t : timer) (ops : list timer_op) : bool :=
  match ops with
  | [] => true
  | StartTimer :: r => (task t =? 0) && alternating (timer_step t StartTimer) r
  | o :: r => alternating (timer_step t o) r
  end.

Definition TInv (t : timer) : Prop :=
  next_task t <> 0 /\ task t < next_task t /\
  ticking t = if task t =? 0 then [] else [(task t, period t)].

Lemma tinv_step t o : TInv t -> match o with StartTimer => task t = 0 | _ => True end -> TInv (timer_step t o).
Proof.
  intros (H1 & H2 & H3). unfold TInv. destruct o as [| |p]; cbn [timer_step].
  - intros E. rewrite E in H3. cbn in *. rewrite H3. cbn [put].
    destruct (N.eqb_spec (next_task t) 0); [congruence|]. repeat split; lia.
  - intros _. cbn. rewrite H3. repeat split; [exact H1|lia|]. destruct (N.eqb_spec (task t) 0) as [E|E]; [reflexivity|].
    unfold erase. cbn. now rewrite N.eqb_refl.
  - intros _. destruct (N.eqb_spec (task t) 0) as [E|E].
    + cbn. rewrite E in *. cbn in *. auto.
    + cbn. rewrite H3. unfold erase. cbn. rewrite N.eqb_refl. cbn.
      destruct (N.eqb_spec (next_task t) 0); [congruence|]. repeat split; lia.
Qed.
Lemma tinv_run ops : forall t, TInv t -> alternating t ops = true -> TInv (fold_left timer_step ops t).
Proof.
  induction ops as [|o ops IH]; intros t H A; [exact H|]. cbn [fold_left].
  destruct o; cbn [alternating] in A.
  - apply andb_true_iff in A as [A1 A2]. apply IH; [|exact A2]. apply tinv_step; [exact H|]. now apply N.eqb_eq.
  - apply IH; [|exact A]. now apply tinv_step.
  - apply IH; [|exact A]. now apply tinv_step.
Qed.
Lemma timer_exact ops : alternating timer_init ops = true ->
  ticking (timer_run ops) = if task (timer_run ops) =? 0 then [] else [(task (timer_run ops), period (timer_run ops))].
Proof. intros A. apply (tinv_run ops timer_init); [|exact A]. repeat split; cbn; lia. Qed.
Lemma timer_stop ops : alternating timer_init ops = true -> ticking (timer_step (timer_run ops) StopTimer) = [].
Proof.
  intros A. pose proof (tinv_run ops timer_init ltac:(repeat split; cbn; lia) A) as H.
  destruct (tinv_step _ StopTimer H I) as (_ & _ & K). exact K.
Qed.
Lemma timer_leak : exists ops, ticking (timer_step (timer_run ops) StopTimer) <> [].
Proof. exists [SetPeriod 10; StartTimer; StartTimer]. vm_compute. discriminate. Qed.
Example timer_demo : alternating timer_init [SetPeriod 10; StartTimer; SetPeriod 5; StopTimer; StartTimer] = true /\
  ticking (timer_run [SetPeriod 10; StartTimer; SetPeriod 5; StopTimer; StartTimer]) = [(3, 5)].
Proof. split; reflexivity. Qed.
