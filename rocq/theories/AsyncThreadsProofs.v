From Verif Require Import Prelude Table AsyncTasks AsyncTasksSpec AsyncTasksProofs AsyncThreads AsyncThreadsSpec.
Open Scope N_scope.

(** ** Changes of the data *)

Inductive dstep (d : sched) : sched -> Prop :=
| DSame : dstep d d
| DSched u t p c d' id : schedule d u t p c = Some (d', id) -> dstep d d'
| DCanc id : dstep d (fst (cancel d id))
| DCancU u : dstep d (fst (cancel_user d u))
| DPick now d' t : pick d now = (d', Some t) -> dstep d d'
| DEnd u : (forall t, pending d t -> user t <> u) -> dstep d (end_cancel d (CancU u)).

Lemma dstep_op d d' : dstep d d' ->
  (exists o r, step d o = Some (d', r)) \/ d' = d \/
  (exists u, d' = end_cancel d (CancU u) /\ (forall t, pending d t -> user t <> u)).
Proof.
  destruct 1.
  - auto.
  - left. exists (Schedule u t p c). cbn. rewrite H. eauto.
  - left. exists (Cancel id). cbn. destruct (cancel d id). eauto.
  - left. exists (CancelUser u). cbn. destruct (cancel_user d u). eauto.
  - left. exists (Pick now). cbn. rewrite H. eauto.
  - right. right. eauto.
Qed.

Lemma dstep_inv d d' : Inv d -> dstep d d' -> Inv d'.
Proof.
  intros I S. destruct (dstep_op _ _ S) as [(o & r & E)|[->|(u & -> & H)]].
  - eapply inv_step; eassumption.
  - exact I.
  - constructor; cbn; try apply I. intros id t L. pose proof (i_user d I _ _ L) as K.
    unfold ids_of in *. rewrite lookup_erase. destruct (N.eqb_spec (user t) u) as [E|E]; [|exact K].
    exfalso. revert E. apply H. unfold pending. now rewrite (proj1 (i_tid d I _ _ L)).
Qed.

Lemma dstep_dead d d' n : Inv d -> dstep d d' -> dead d n -> dead d' n.
Proof.
  intros I S D. destruct (dstep_op _ _ S) as [(o & r & E)|[->|(u & -> & H)]].
  - eapply dead_step; eassumption.
  - exact D.
  - exact D.
Qed.

(** Task object [n] can only be found under identifier [id]. *)
Definition tracks (d : sched) (n id : N) : Prop :=
  n < next_ser d /\ forall k t, lookup (by_id d) k = Some t -> ser t = n -> k = id.

Lemma dstep_tracks d d' n id : Inv d -> dstep d d' -> tracks d n id -> tracks d' n id.
Proof.
  intros I S [T1 T2]. unfold tracks. destruct S.
  - auto.
  - destruct (inv_schedule _ _ _ _ _ _ _ I H) as (_ & Z & NZ).
    destruct (N.eq_dec id0 0) as [E0|E0]; [apply Z in E0 as [-> _]; auto|].
    destruct (NZ E0) as (_ & _ & _ & B & Ns & _). split; [lia|]. intros k x. rewrite B, lookup_put.
    destruct (k =? id0); [intros [= <-]; cbn; lia|apply T2].
  - split; [now rewrite (proj1 (cancel_next_ser d id0))|]. intros k x. rewrite cancel_lookup.
    destruct (k =? id0); [discriminate|apply T2].
  - split.
    + unfold cancel_user. destruct (lookup (by_user d) u) as [ids|]; [|exact T1]. cbn [fst next_ser].
      fold (cancel_all ids d). now rewrite (proj1 (cancel_all_next_ser ids d)).
    + intros k x. rewrite cancel_user_lookup. destruct (mem _ _); [discriminate|apply T2].
  - destruct (pick_effect _ _ _ _ I H) as (H1 & H2 & H3). split; [lia|]. intros k x. rewrite H3.
    destruct (N.eqb_spec k (tid t)) as [E|E]; [|apply T2]. subst k.
    destruct (period t); [|discriminate]. intros [= <-]. cbn. apply T2. exact H1.
  - auto.
Qed.

(** ** List updates *)
Lemma nth_set_nth {A} (l : list A) i j x : nth_error (set_nth l i x) j =
  if Nat.eqb i j then (match nth_error l i with Some _ => Some x | None => None end) else nth_error l j.
Proof.
  revert i j. induction l as [|y l IH]; intros i j.
  - cbn. destruct i, j; cbn; try reflexivity; now destruct (Nat.eqb i j).
  - destruct i as [|i], j as [|j]; cbn; try reflexivity. apply IH.
Qed.
Lemma in_set_nth {A} (l : list A) i x y : In y (set_nth l i x) -> y = x \/ In y l.
Proof.
  revert i. induction l as [|z l IH]; intros [|i]; cbn; intuition. apply IH in H0. intuition.
Qed.

(** ** The invariant *)
Section Threads.
Variable prog : N -> list call.

(** A cancellation under way has dealt with what it has left behind. *)
Definition gone (d : sched) (k : call) (ids : list N) : Prop :=
  match k with
  | Sched _ _ _ _ => True
  | Canc id => forall t, lookup (by_id d) id = Some t -> In id ids
  | CancU u => forall id t, lookup (by_id d) id = Some t -> user t = u -> In id ids
  end.

Definition handled (w : wstate) : option task :=
  match w with WIdle => None | WPicked t | WLocked t | WRun t _ => Some t end.

Record TInv (s : state) : Prop := {
  t_inv : Inv (data s);
  t_excl : forall i j c e, nth_error (clients s) i = Some c -> nth_error (clients s) j = Some e ->
     busy c <> None -> busy e <> None -> i = j;
  t_gone : forall i c k ids, nth_error (clients s) i = Some c -> busy c = Some (k, ids) ->
     gone (data s) k ids;
  t_handled : forall t, handled (worker s) = Some t -> ser t < next_ser (data s) /\
     (one_shot t = true -> dead (data s) (ser t));
}.

Lemma internal_free_spec s : internal_free s = true <->
  forall i c, nth_error (clients s) i = Some c -> busy c = None.
Proof.
  unfold internal_free. rewrite forallb_forall. split.
  - intros H i c E. apply nth_error_In, H in E. unfold idle_client in E. now destruct (busy c).
  - intros H c Hc. apply In_nth_error in Hc as [i Hc]. apply H in Hc. unfold idle_client. now rewrite Hc.
Qed.
Lemma internal_busy s : internal_free s = false -> exists i c, nth_error (clients s) i = Some c /\ busy c <> None.
Proof.
  unfold internal_free. intros H.
  assert (E : exists c, In c (clients s) /\ busy c <> None).
  { induction (clients s) as [|c l IH]; [discriminate|]. cbn in H. apply andb_false_iff in H as [H|H].
    - exists c. split; [now left|]. unfold idle_client in H. destruct (busy c); congruence.
    - destruct (IH H) as (e & E1 & E2). exists e. split; [now right|exact E2]. }
  destruct E as (c & E1 & E2). apply In_nth_error in E1 as [i E1]. eauto.
Qed.

Lemma next_ser_dstep d d' : Inv d -> dstep d d' -> next_ser d <= next_ser d'.
Proof.
  intros I S. destruct S.
  - lia.
  - destruct (inv_schedule _ _ _ _ _ _ _ I H) as (_ & Z & NZ).
    destruct (N.eq_dec id 0) as [E0|E0]; [apply Z in E0 as [-> _]; lia|].
    destruct (NZ E0) as (_ & _ & _ & _ & Ns & _). lia.
  - rewrite (proj1 (cancel_next_ser d id)). lia.
  - unfold cancel_user. destruct (lookup (by_user d) u) as [ids|]; [|cbn; lia]. cbn [fst next_ser].
    fold (cancel_all ids d). rewrite (proj1 (cancel_all_next_ser ids d)). lia.
  - destruct (pick_effect _ _ _ _ I H) as (H1 & H2 & H3). lia.
  - cbn. lia.
Qed.

Lemma handled_dstep d d' t : Inv d -> dstep d d' ->
  (ser t < next_ser d /\ (one_shot t = true -> dead d (ser t))) ->
  (ser t < next_ser d' /\ (one_shot t = true -> dead d' (ser t))).
Proof.
  intros I S [H1 H2]. split; [pose proof (next_ser_dstep _ _ I S); lia|].
  intros E. eapply dstep_dead; eauto.
Qed.

Lemma pick_handled d now d' t : Inv d -> pick d now = (d', Some t) ->
  ser t < next_ser d' /\ (one_shot t = true -> dead d' (ser t)).
Proof.
  intros I H. destruct (pick_effect _ _ _ _ I H) as (H1 & H2 & H3).
  pose proof (i_tid d I _ _ H1) as (_ & _ & L). split; [lia|]. intros O. split; [lia|].
  intros k x. rewrite H3. unfold one_shot in O. destruct (period t); [discriminate|].
  destruct (N.eqb_spec k (tid t)) as [|E]; [discriminate|]. intros K Q. apply E.
  eapply (i_ser d I); eassumption.
Qed.

Lemma begin_call_dstep d k d' ids r : begin_call d k = Some (d', ids, r) -> dstep d d'.
Proof.
  destruct k as [u t p c|id|u]; cbn.
  - destruct (schedule d u t p c) as [[d1 id]|] eqn:E; [|discriminate]. intros [= <- <- <-].
    now apply (DSched d u t p c d1 id).
  - destruct (lookup _ _); intros [= <- <- <-]; constructor.
  - destruct (lookup _ _); intros [= <- <- <-]; constructor.
Qed.

Lemma call_step_shape s i k cr rest s' ev : call_step s i k cr rest = Some (s', ev) ->
  internal_free s = true /\
  exists d b, dstep (data s) d /\ s' = put_client s d i {| busy := b; crit := cr; todo := rest |} /\
    match b with
    | None => exists r, ev = [EReturn i k r] /\
        (forall id, k = Canc id -> lookup (by_id d) id = None)
    | Some (k', ids) => k' = k /\ d = data s /\ ev = [] /\
        match k with
        | Canc id => ids = [id]
        | CancU u => ids = ids_of (by_user d) u
        | Sched _ _ _ _ => False end
    end.
Proof.
  unfold call_step. destruct (internal_free s); [|discriminate].
  destruct (begin_call (data s) k) as [[[d [ids|]] r]|] eqn:E; [| |discriminate];
    intros [= <- <-]; (split; [reflexivity|]).
  - exists d, (Some (k, ids)). split; [eapply begin_call_dstep; exact E|]. split; [reflexivity|].
    split; [reflexivity|].
    destruct k as [u t p c|id|u]; cbn in E.
    + destruct (schedule (data s) u t p c) as [[? ?]|]; discriminate.
    + destruct (lookup (by_id (data s)) id); [|discriminate]. injection E as <- <- _. auto.
    + unfold ids_of. destruct (lookup (by_user (data s)) u) eqn:L; [|discriminate]. injection E as <- <- _.
      rewrite L. auto.
  - exists d, None. split; [eapply begin_call_dstep; exact E|]. split; [reflexivity|].
    exists r. split; [reflexivity|]. intros id ->. cbn in E.
    destruct (lookup (by_id (data s)) id) eqn:L; [discriminate|]. injection E as <- _. exact L.
Qed.

(** A client's step: it changes the data only if it holds, or takes, the
    internal mutex. *)
Lemma cstep_shape s i s' ev : cstep s i = Some (s', ev) ->
  exists c c' d, nth_error (clients s) i = Some c /\ s' = put_client s d i c' /\
  ( (* cancelling *)
    (exists k id ids, busy c = Some (k, id :: ids) /\ busy c' = Some (k, ids) /\
       ((d = data s /\ lookup (by_id d) id = None /\ ev = []) \/
        (exists t, lookup (by_id (data s)) id = Some t /\ in_callback s (ser t) = false /\
           d = fst (cancel (data s) id) /\ ev = [EErase (Some i) (ser t)])))
  \/ (* end of a cancellation *)
    (exists k, busy c = Some (k, []) /\ busy c' = None /\ d = end_cancel (data s) k /\
       ev = [EReturn i k (RBool true)])
  \/ (* a call *)
    (busy c = None /\ internal_free s = true /\ dstep (data s) d /\ exists k,
      match busy c' with
      | None => exists r, ev = [EReturn i k r] /\ (forall id, k = Canc id -> lookup (by_id d) id = None)
      | Some (k', ids) => k' = k /\ d = data s /\ ev = [] /\
          match k with
          | Canc id => ids = [id]
          | CancU u => ids = ids_of (by_user d) u
          | Sched _ _ _ _ => False end
      end)
  \/ (* entering or leaving a critical section *)
    (busy c = None /\ busy c' = None /\ d = data s /\ ev = [])).
Proof.
  unfold cstep. destruct (nth_error (clients s) i) as [c|] eqn:E; [|discriminate].
  destruct (busy c) as [[k [|id ids]]|] eqn:B.
  - intros [= <- <-]. exists c. eexists _, _. split; [reflexivity|]. split; [reflexivity|].
    right. left. exists k. auto.
  - destruct (lookup (by_id (data s)) id) as [t|] eqn:L.
    + destruct (in_callback s (ser t)) eqn:K; [discriminate|]. intros [= <- <-].
      exists c. eexists _, _. split; [reflexivity|]. split; [reflexivity|]. left. exists k, id, ids.
      split; [exact B|]. split; [reflexivity|]. right. eauto.
    + intros [= <- <-]. exists c. eexists _, _. split; [reflexivity|]. split; [reflexivity|].
      left. exists k, id, ids. split; [exact B|]. split; [reflexivity|]. left. auto.
  - assert (G : forall k cr rest, call_step s i k cr rest = Some (s', ev) ->
      exists c0 c' d, Some c = Some c0 /\ s' = put_client s d i c' /\
      (busy c0 = None /\ internal_free s = true /\ dstep (data s) d /\ exists k,
      match busy c' with
      | None => exists r, ev = [EReturn i k r] /\ (forall id, k = Canc id -> lookup (by_id d) id = None)
      | Some (k', ids) => k' = k /\ d = data s /\ ev = [] /\
          match k with
          | Canc id => ids = [id]
          | CancU u => ids = ids_of (by_user d) u
          | Sched _ _ _ _ => False end
      end)).
    { intros k cr rest H. apply call_step_shape in H as (F & d & b & H1 & H2 & H3).
      exists c. eexists _, _. split; [reflexivity|]. split; [exact H2|]. split; [exact B|].
      split; [exact F|]. split; [exact H1|]. exists k. exact H3. }
    assert (G' : forall k cr rest, call_step s i k cr rest = Some (s', ev) -> _) by exact G.
    destruct (crit c) as [[|k ks]|].
    + intros [= <- <-]. exists c. eexists _, _. split; [reflexivity|]. split; [reflexivity|].
      right. right. right. auto.
    + intros H. apply G in H as (c0 & c' & d & H1 & H2 & H3). exists c0, c', d.
      split; [exact H1|]. split; [exact H2|]. right. right. left. exact H3.
    + destruct (todo c) as [|[k|ks] rest]; [discriminate| |].
      * intros H. apply G in H as (c0 & c' & d & H1 & H2 & H3). exists c0, c', d.
        split; [exact H1|]. split; [exact H2|]. right. right. left. exact H3.
      * destruct (sync_free s); [|discriminate]. intros [= <- <-].
        exists c. eexists _, _. split; [reflexivity|]. split; [reflexivity|]. right. right. right. auto.
Qed.

Lemma gone_end d k : Inv d -> gone d k [] -> dstep d (end_cancel d k).
Proof.
  intros I G. destruct k as [u t p c|id|u]; cbn [end_cancel]; try constructor.
  intros t P E. eapply G; [exact P|exact E].
Qed.
Lemma end_by_id d k : by_id (end_cancel d k) = by_id d.
Proof. now destruct k. Qed.

Lemma cstep_inv s i s' ev : TInv s -> cstep s i = Some (s', ev) ->
  TInv s' /\ dstep (data s) (data s') /\ worker s' = worker s.
Proof.
  intros T H. pose proof (t_inv s T) as I.
  apply cstep_shape in H as (c & c' & d & E & -> & H). cbn [data worker put_client].
  (* the other clients *)
  assert (NE : forall j e, nth_error (clients (put_client s d i c')) j = Some e ->
    (j = i /\ e = c') \/ (j <> i /\ nth_error (clients s) j = Some e)).
  { intros j e. cbn [clients put_client]. rewrite nth_set_nth, E.
    destruct (Nat.eqb_spec i j) as [->|N]; [intros [= <-]; auto|auto]. }
  assert (EX : (busy c' <> None -> busy c <> None \/ internal_free s = true) ->
    forall a b x y, nth_error (clients (put_client s d i c')) a = Some x ->
    nth_error (clients (put_client s d i c')) b = Some y -> busy x <> None -> busy y <> None -> a = b).
  { intros HB a b x y Ha Hb Bx By. apply NE in Ha as [[-> ->]|[Na Ha]]; apply NE in Hb as [[-> ->]|[Nb Hb]].
    - reflexivity.
    - destruct (HB Bx) as [K|K].
      + eapply (t_excl s T); eassumption.
      + rewrite internal_free_spec in K. exfalso. now apply By, (K b).
    - destruct (HB By) as [K|K].
      + eapply (t_excl s T); eassumption.
      + rewrite internal_free_spec in K. exfalso. now apply Bx, (K a).
    - eapply (t_excl s T); eassumption. }
  assert (W : dstep (data s) d ->
    forall t, handled (worker s) = Some t -> ser t < next_ser d /\ (one_shot t = true -> dead d (ser t))).
  { intros D t Ht. eapply handled_dstep; [exact I|exact D|]. now apply (t_handled s T). }
  assert (FIN : dstep (data s) d -> (busy c' <> None -> busy c <> None \/ internal_free s = true) ->
    (forall k ids, busy c' = Some (k, ids) -> gone d k ids) ->
    (forall j e k ids, j <> i -> nth_error (clients s) j = Some e -> busy e = Some (k, ids) -> gone d k ids) ->
    TInv (put_client s d i c') /\ dstep (data s) d /\ worker s = worker s).
  { intros D HB G1 G2. split; [|auto]. constructor; cbn [data worker put_client].
    - eapply dstep_inv; eassumption.
    - now apply EX.
    - intros j e k ids Hj Be. apply NE in Hj as [[-> ->]|[Nj Hj]]; eauto.
    - now apply W. }
  destruct H as [(k & id & ids & B & B' & H)|[(k & B & B' & -> & _)|[(B & F & D & k & H)|(B & B' & -> & _)]]].
  - pose proof (t_gone s T _ _ _ _ E B) as G.
    assert (OTH : forall j e k0 ids0, j <> i -> nth_error (clients s) j = Some e -> busy e = Some (k0, ids0) -> False).
    { intros j e k0 ids0 Nj Hj Be. apply Nj. eapply (t_excl s T); try eassumption; congruence. }
    destruct H as [(-> & L & _)|(t & L & _ & -> & _)].
    + apply FIN; [constructor|intros _; left; congruence| |intros; exfalso; eauto].
      intros k1 ids1. rewrite B'. intros [= <- <-]. destruct k as [|id1|u]; cbn in *; [exact Logic.I| |].
      * intros t Ht. destruct (G t Ht) as [->|K]; [congruence|exact K].
      * intros a t Ht Ut. destruct (G a t Ht Ut) as [->|K]; [congruence|exact K].
    + apply FIN; [constructor|intros _; left; congruence| |intros; exfalso; eauto].
      intros k1 ids1. rewrite B'. intros [= <- <-]. destruct k as [|id1|u]; cbn [gone] in *; [exact Logic.I| |].
      * intros x. rewrite cancel_lookup. destruct (N.eqb_spec id1 id) as [|N]; [discriminate|].
        intros Hx. destruct (G x Hx) as [->|K]; [congruence|exact K].
      * intros a x. rewrite cancel_lookup. destruct (N.eqb_spec a id) as [|N]; [discriminate|].
        intros Hx Ux. destruct (G a x Hx Ux) as [->|K]; [congruence|exact K].
  - pose proof (t_gone s T _ _ _ _ E B) as G. apply FIN.
    + now apply gone_end.
    + intros K. congruence.
    + intros k1 ids1 K. congruence.
    + intros j e k0 ids0 Nj Hj Be. exfalso. apply Nj. eapply (t_excl s T); try eassumption; congruence.
  - rewrite internal_free_spec in F. apply FIN; [exact D|rewrite internal_free_spec; auto| |].
    + intros k1 ids1 K. rewrite K in H. destruct H as (-> & -> & _ & H). destruct k as [|id|u]; cbn.
      * exact Logic.I.
      * subst ids1. intros. now left.
      * subst ids1. intros a t La Ut. rewrite <- Ut. now apply (i_user _ I).
    + intros j e k0 ids0 _ Hj Be. apply F in Hj. congruence.
  - apply FIN; [constructor|congruence|congruence|].
    intros j e k0 ids0 _ Hj Be. eapply (t_gone s T); eassumption.
Qed.

Lemma worker_call_dstep d k d' ev : worker_call d k = Some (d', ev) -> dstep d d'.
Proof.
  destruct k as [u t p c|id|u]; cbn.
  - destruct (schedule d u t p c) as [[d1 id]|] eqn:E; [|discriminate]. intros [= <- <-].
    now apply (DSched d u t p c d1 id).
  - intros [= <- <-]. constructor.
  - intros [= <- <-]. constructor.
Qed.

Lemma wstep_inv s now s' ev : TInv s -> wstep prog s now = Some (s', ev) ->
  TInv s' /\ dstep (data s) (data s') /\ clients s' = clients s.
Proof.
  intros T. pose proof (t_inv s T) as I. unfold wstep.
  assert (FIN : forall d w, dstep (data s) d -> (internal_free s = true \/ d = data s) ->
    (forall t, handled w = Some t -> ser t < next_ser d /\ (one_shot t = true -> dead d (ser t))) ->
    TInv {| data := d; worker := w; clients := clients s |}).
  { intros d w D F W. constructor; cbn [data worker clients].
    - eapply dstep_inv; eassumption.
    - apply T.
    - intros j e k ids Hj Be. destruct F as [F| ->]; [|eapply (t_gone s T); eassumption].
      rewrite internal_free_spec in F. apply F in Hj. congruence.
    - exact W. }
  assert (W : forall d, dstep (data s) d ->
    forall t, handled (worker s) = Some t -> ser t < next_ser d /\ (one_shot t = true -> dead d (ser t))).
  { intros d D t Ht. eapply handled_dstep; [exact I|exact D|]. now apply (t_handled s T). }
  destruct (worker s) as [|t|t|t [|k ks]] eqn:Ew.
  - destruct (internal_free s) eqn:F; [|discriminate]. destruct (pick (data s) now) as [d [t|]] eqn:P; [|discriminate].
    intros [= <- <-]. cbn [data clients]. split; [|split; [now apply (DPick _ now _ t)|reflexivity]].
    apply FIN; [now apply (DPick _ now _ t)|auto|]. intros x [= <-]. eapply pick_handled; eassumption.
  - intros [= <- <-]. cbn [data clients]. split; [|split; [constructor|reflexivity]].
    apply FIN; [constructor|auto|]. intros x Hx. apply W; [constructor|exact Hx].
  - destruct (sync_free s); [|discriminate]. intros [= <- <-]. cbn [data clients].
    split; [|split; [constructor|reflexivity]].
    apply FIN; [constructor|auto|]. intros x Hx. apply W; [constructor|exact Hx].
  - intros [= <- <-]. cbn [data clients]. split; [|split; [constructor|reflexivity]].
    apply FIN; [constructor|auto|]. discriminate.
  - destruct (internal_free s) eqn:F; [|discriminate]. destruct (worker_call (data s) k) as [[d e]|] eqn:P; [|discriminate].
    intros [= <- <-]. cbn [data clients]. apply worker_call_dstep in P. split; [|split; [exact P|reflexivity]].
    apply FIN; [exact P|auto|]. intros x Hx. apply W; [exact P|exact Hx].
Qed.

Lemma move_inv s ch s' ev : TInv s -> move prog s ch = Some (s', ev) -> TInv s' /\ dstep (data s) (data s').
Proof.
  intros T. destruct ch; cbn [move]; intros H.
  - apply wstep_inv in H; tauto.
  - apply cstep_inv in H; tauto.
Qed.

Lemma exec_inv path : forall s s' evs, TInv s -> exec prog s path = Some (s', evs) -> TInv s'.
Proof.
  induction path as [|ch path IH]; intros s s' evs T; cbn [exec]; [intros [= <- <-]; exact T|].
  destruct (move prog s ch) as [[s1 ev]|] eqn:E; [|discriminate].
  destruct (exec prog s1 path) as [[s2 evs2]|] eqn:E2; [|discriminate]. intros [= <- <-].
  eapply IH; [|exact E2]. eapply move_inv; eassumption.
Qed.

Lemma start_inv ps : TInv (start ps).
Proof.
  assert (B : forall i c, nth_error (clients (start ps)) i = Some c -> busy c = None).
  { cbn. intros i c H. apply nth_error_In, in_map_iff in H as (p & <- & _). reflexivity. }
  constructor.
  - apply inv_init.
  - intros i j c e Hi. apply B in Hi. congruence.
  - intros i c k ids Hi Bc. apply B in Hi. congruence.
  - discriminate.
Qed.

Lemma treachable_inv ps s : treachable prog ps s -> TInv s.
Proof. intros (path & evs & H). eapply exec_inv; [apply start_inv|exact H]. Qed.

(** ** C15 *)

Lemma starts_app n a b : starts n (a ++ b) = starts n a + starts n b.
Proof. unfold starts. now rewrite filter_app, lenN_app. Qed.

Lemma starts_cstep s i s' ev n : cstep s i = Some (s', ev) -> starts n ev = 0.
Proof.
  intros H. apply cstep_shape in H as (c & c' & d & _ & _ & H).
  destruct H as [(k & id & ids & _ & _ & [(_ & _ & ->)|(t & _ & _ & _ & ->)])|[(k & _ & _ & _ & ->)|[(_ & _ & _ & k & H)|(_ & _ & _ & ->)]]];
    try reflexivity.
  destruct (busy c') as [[k' ids]|]; [destruct H as (_ & _ & -> & _)|destruct H as (r & -> & _)]; reflexivity.
Qed.

Lemma starts_worker_call d k d' ev n : worker_call d k = Some (d', ev) -> starts n ev = 0.
Proof.
  destruct k as [u t p c|id|u]; cbn.
  - destruct (schedule d u t p c) as [[d1 id]|]; [|discriminate]. intros [= <- <-]. reflexivity.
  - intros [= <- <-]. unfold erased. now destruct (lookup _ _).
  - intros [= <- <-]. induction (ids_of (by_user d) u) as [|a l IH]; [reflexivity|]. cbn [flat_map].
    rewrite starts_app, IH. unfold erased. now destruct (lookup _ _).
Qed.

Definition b2n (b : bool) : N := if b then 1 else 0.

Lemma late_step s ch s' ev n : TInv s -> dead (data s) n -> move prog s ch = Some (s', ev) ->
  starts n ev + b2n (committed s' n) <= b2n (committed s n).
Proof.
  intros T D. destruct ch as [now|i]; cbn [move].
  - unfold wstep, committed. destruct (worker s) as [|t|t|t [|k ks]] eqn:Ew.
    + destruct (internal_free s); [|discriminate]. destruct (pick (data s) now) as [d [t|]] eqn:P; [|discriminate].
      intros [= <- <-]. cbn [worker]. destruct (pick_effect _ _ _ _ (t_inv s T) P) as (H1 & _).
      apply D in H1. destruct (N.eqb_spec (ser t) n); [congruence|reflexivity].
    + intros [= <- <-]. change (starts n []) with 0. cbn [worker]. lia.
    + destruct (sync_free s); [|discriminate]. intros [= <- <-]. cbn [worker].
      unfold starts. cbn [filter]. destruct (ser t =? n); reflexivity.
    + intros [= <- <-]. reflexivity.
    + destruct (internal_free s); [|discriminate].
      destruct (worker_call (data s) k) as [[d e]|] eqn:P; [|discriminate]. intros [= <- <-].
      rewrite (starts_worker_call _ _ _ _ _ P). reflexivity.
  - intros H. rewrite (starts_cstep _ _ _ _ _ H). unfold committed.
    apply cstep_inv in H as (_ & _ & ->); [lia|exact T].
Qed.

Lemma late_exec path : forall s s' evs n, TInv s -> dead (data s) n -> exec prog s path = Some (s', evs) ->
  starts n evs <= b2n (committed s n).
Proof.
  induction path as [|ch path IH]; intros s s' evs n T D; cbn [exec].
  { intros [= <- <-]. change (starts n []) with 0. lia. }
  destruct (move prog s ch) as [[s1 ev]|] eqn:E; [|discriminate].
  destruct (exec prog s1 path) as [[s2 evs2]|] eqn:E2; [|discriminate]. intros [= <- <-].
  pose proof (late_step _ _ _ _ _ T D E) as L. destruct (move_inv _ _ _ _ T E) as [T1 DS].
  pose proof (IH _ _ _ n T1 (dstep_dead _ _ _ (t_inv s T) DS D) E2). rewrite starts_app. lia.
Qed.

Lemma erase_bounds s i s1 n evs path s2 evs2 ps : treachable prog ps s ->
  cstep s i = Some (s1, evs) -> In (EErase (Some i) n) evs -> exec prog s1 path = Some (s2, evs2) ->
  executing s1 n = false /\ starts n evs2 <= (if about_to_run s1 n then 1 else 0).
Proof.
  intros R H Hin X. pose proof (treachable_inv _ _ R) as T.
  destruct (cstep_inv _ _ _ _ T H) as (T1 & DS & W).
  apply cstep_shape in H as (c & c' & d & E & -> & H). cbn [data put_client] in *.
  assert (K : exists id t, lookup (by_id (data s)) id = Some t /\ ser t = n /\ in_callback s n = false /\
    d = fst (cancel (data s) id)).
  { destruct H as [(k & id & ids & _ & _ & [(_ & _ & ->)|(t & L & F & Hd & ->)])|[(k & _ & _ & _ & ->)|[(_ & _ & _ & k & H)|(_ & _ & _ & ->)]]].
    - destruct Hin.
    - destruct Hin as [Hin|[]]. injection Hin as <-. eauto 6.
    - destruct Hin as [Hin|[]]. discriminate.
    - destruct (busy c') as [[k' ids]|]; [destruct H as (_ & _ & -> & _)|destruct H as (r & -> & _)].
      + destruct Hin.
      + destruct Hin as [Hin|[]]. discriminate.
    - destruct Hin. }
  destruct K as (id & t & L & <- & F & ->).
  assert (D : dead (fst (cancel (data s) id)) (ser t)).
  { pose proof (i_tid _ (t_inv s T) _ _ L) as (_ & _ & Q). split.
    - now rewrite (proj1 (cancel_next_ser (data s) id)).
    - intros a x. rewrite cancel_lookup. destruct (N.eqb_spec a id) as [|Na]; [discriminate|].
      intros La Ea. apply Na. eapply (i_ser _ (t_inv s T)); eassumption. }
  split; [exact F|].
  pose proof (late_exec _ _ _ _ _ T1 D X) as B. unfold committed in B. unfold about_to_run. rewrite W in *.
  unfold in_callback in F. destruct (worker s); cbn [b2n] in B; try exact B.
  rewrite F in B. exact B.
Qed.

Lemma exec_tracks path : forall s s' evs n id, TInv s -> tracks (data s) n id ->
  exec prog s path = Some (s', evs) -> tracks (data s') n id.
Proof.
  induction path as [|ch path IH]; intros s s' evs n id T D; cbn [exec]; [intros [= <- <-]; exact D|].
  destruct (move prog s ch) as [[s1 ev]|] eqn:E; [|discriminate].
  destruct (exec prog s1 path) as [[s2 evs2]|] eqn:E2; [|discriminate]. intros [= <- <-].
  destruct (move_inv _ _ _ _ T E) as [T1 DS]. eapply IH; [exact T1| |exact E2].
  eapply dstep_tracks; [apply T|exact DS|exact D].
Qed.

Lemma return_gone s i s' id r : TInv s -> cstep s i = Some (s', [EReturn i (Canc id) r]) ->
  lookup (by_id (data s')) id = None.
Proof.
  intros T H. apply cstep_shape in H as (c & c' & d & E & -> & H). cbn [data put_client].
  destruct H as [(k & id1 & ids & _ & _ & [(_ & _ & H)|(t & _ & _ & _ & H)])|[(k & B & _ & -> & H)|[(_ & _ & _ & k & H)|(_ & _ & _ & H)]]];
    try discriminate.
  - injection H as <- _. rewrite end_by_id. pose proof (t_gone s T _ _ _ _ E B) as G. cbn in G.
    destruct (lookup (by_id (data s)) id) as [t|] eqn:L; [|reflexivity]. destruct (G t eq_refl).
  - destruct (busy c') as [[k' ids]|]; [destruct H as (_ & _ & H & _); discriminate|].
    destruct H as (r' & H & G). injection H as <- _. now apply G.
Qed.

Lemma cancel_bounds ps s t path s1 evs i s2 r path2 s3 evs2 :
  treachable prog ps s -> pending (data s) t -> exec prog s path = Some (s1, evs) ->
  cstep s1 i = Some (s2, [EReturn i (Canc (tid t)) r]) -> exec prog s2 path2 = Some (s3, evs2) ->
  starts (ser t) evs2 <= (if committed s2 (ser t) then 1 else 0).
Proof.
  intros R P X C X2. pose proof (treachable_inv _ _ R) as T.
  pose proof (exec_inv _ _ _ _ T X) as T1. destruct (cstep_inv _ _ _ _ T1 C) as (T2 & DS & _).
  apply (fun D => late_exec _ _ _ _ (ser t) T2 D X2).
  assert (K : tracks (data s) (ser t) (tid t)).
  { pose proof (i_tid _ (t_inv s T) _ _ P) as (_ & _ & Q). split; [exact Q|].
    intros k x Lk Ek. eapply (i_ser _ (t_inv s T)); eassumption. }
  pose proof (exec_tracks _ _ _ _ _ _ T K X) as K'. clear K. rename K' into K.
  apply (dstep_tracks _ _ _ _ (t_inv _ T1) DS) in K as [K1 K2].
  pose proof (return_gone _ _ _ _ _ T1 C) as G. split; [exact K1|].
  intros a x La Ea. pose proof (K2 _ _ La Ea). congruence.
Qed.

(** ** C16 *)

Lemma begin_call_total d k : Inv d -> begin_call d k <> None.
Proof.
  intros I. destruct k as [u t p c|id|u]; cbn.
  - pose proof (schedule_total d u t p c I). destruct (schedule d u t p c) as [[? ?]|]; congruence.
  - destruct (lookup _ _); discriminate.
  - destruct (lookup _ _); discriminate.
Qed.
Lemma worker_call_total d k : Inv d -> worker_call d k <> None.
Proof.
  intros I. destruct k as [u t p c|id|u]; cbn; try discriminate.
  pose proof (schedule_total d u t p c I). destruct (schedule d u t p c) as [[? ?]|]; congruence.
Qed.

Lemma call_step_none s i k cr rest : Inv (data s) -> call_step s i k cr rest = None -> internal_free s = false.
Proof.
  intros I. unfold call_step. destruct (internal_free s); [|reflexivity].
  pose proof (begin_call_total (data s) k I). destruct (begin_call (data s) k) as [[[d [ids|]] r]|]; congruence.
Qed.

(** A busy client that cannot move waits for the callback the worker runs. *)
Lemma busy_blocked s i c : TInv s -> nth_error (clients s) i = Some c -> busy c <> None ->
  cstep s i = None -> exists t, executing s (ser t) = true /\ handled (worker s) = Some t /\ waits_for_callback s t.
Proof.
  intros T E B. unfold cstep. rewrite E. destruct (busy c) as [[k [|id ids]]|] eqn:Eb; [discriminate| |congruence].
  destruct (lookup (by_id (data s)) id) as [x|] eqn:L; [|discriminate].
  destruct (in_callback s (ser x)) eqn:F; [|discriminate]. intros _.
  assert (G : forall t, handled (worker s) = Some t -> executing s (ser t) = true -> ser x = ser t ->
    exists t0, executing s (ser t0) = true /\ handled (worker s) = Some t0 /\ waits_for_callback s t0).
  { intros t H1 H2 H3. exists t. split; [exact H2|]. split; [exact H1|]. exists c, k, id, ids, x.
    split; [now apply nth_error_In in E|]. split; [exact Eb|].
    destruct (i_tid _ (t_inv s T) _ _ L) as (Q & _). split; [unfold pending; now rewrite Q|].
    split; [exact Q|]. exact H3. }
  unfold in_callback, executing in *. destruct (worker s) as [|t|t|t ks]; try discriminate;
    apply N.eqb_eq in F; apply (G t); try reflexivity; try (apply N.eqb_refl); auto.
Qed.

Lemma all_idle_or_blocked s : TInv s -> (forall i, cstep s i = None) ->
  internal_free s = true \/
  exists t, executing s (ser t) = true /\ handled (worker s) = Some t /\ waits_for_callback s t.
Proof.
  intros T H. destruct (internal_free s) eqn:F; [now left|right].
  apply internal_busy in F as (i & c & E & B). eapply busy_blocked; eauto.
Qed.

(** With the internal mutex free, no client in a critical section is blocked. *)
Lemma crit_moves s i c : TInv s -> internal_free s = true -> nth_error (clients s) i = Some c ->
  crit c <> None -> cstep s i <> None.
Proof.
  intros T F E C H. unfold cstep in H. rewrite E in H.
  assert (B : busy c = None) by (rewrite internal_free_spec in F; eauto). rewrite B in H.
  destruct (crit c) as [[|k ks]|]; [discriminate| |congruence].
  apply call_step_none in H; [congruence|apply T].
Qed.

Lemma sync_blocked s : sync_free s = false -> (exists t ks, worker s = WRun t ks) \/
  exists i c, nth_error (clients s) i = Some c /\ crit c <> None.
Proof.
  unfold sync_free. intros H.
  assert (E : forallb outside (clients s) = false -> exists i c, nth_error (clients s) i = Some c /\ crit c <> None).
  { clear H. intros H. assert (E : exists c, In c (clients s) /\ crit c <> None).
    { induction (clients s) as [|c l IH]; [discriminate|]. cbn in H. apply andb_false_iff in H as [H|H].
      - exists c. split; [now left|]. unfold outside in H. destruct (crit c); congruence.
      - destruct (IH H) as (e & E1 & E2). exists e. split; [now right|exact E2]. }
    destruct E as (c & E1 & E2). apply In_nth_error in E1 as [i E1]. eauto. }
  destruct (worker s); eauto.
Qed.

Lemma deadlock_shape ps s : treachable prog ps s -> deadlocked prog s ->
  exists t, one_shot t = false /\ waits_for_callback s t /\
  ((exists k ks, worker s = WRun t (k :: ks)) \/
   (worker s = WLocked t /\ exists c, In c (clients s) /\ calls_in_section c)).
Proof.
  intros R [U M]. pose proof (treachable_inv _ _ R) as T.
  assert (MC : forall i, cstep s i = None) by (intros i; apply (M (MoveClient i))).
  assert (MW : forall now, wstep prog s now = None) by (intros now; apply (M (MoveWorker now))).
  assert (BL : forall t, handled (worker s) = Some t -> executing s (ser t) = true -> waits_for_callback s t ->
    one_shot t = false).
  { intros t Ht _ (c & k & id & ids & x & _ & _ & P & _ & Ex).
    destruct (one_shot t) eqn:O; [|reflexivity]. destruct (t_handled s T t Ht) as [_ D].
    destruct (D O) as [_ D2]. exfalso. now apply (D2 (tid x) x). }
  destruct (all_idle_or_blocked s T MC) as [F|(t & Ex & Ht & Wt)].
  - (* internal mutex free: somebody can move *)
    exfalso. destruct (sync_free s) eqn:SF.
    + destruct (worker s) as [|t|t|t ks] eqn:Ew.
      * destruct U as [(c & Hc & NF)|U]; [|congruence]. apply In_nth_error in Hc as [i Hc].
        specialize (MC i). unfold cstep in MC. rewrite Hc in MC.
        rewrite (proj1 (internal_free_spec s) F _ _ Hc) in MC.
        assert (Cr : crit c = None).
        { unfold sync_free in SF. rewrite Ew in SF. rewrite forallb_forall in SF.
          apply nth_error_In, SF in Hc. unfold outside in Hc. now destruct (crit c). }
        rewrite Cr in MC. destruct (todo c) as [|[k|ks] rest] eqn:Td.
        -- apply NF. split; [eapply internal_free_spec; eassumption|auto].
        -- apply call_step_none in MC; [congruence|apply T].
        -- rewrite SF in MC. discriminate.
      * specialize (MW 0). unfold wstep in MW. rewrite Ew in MW. discriminate.
      * specialize (MW 0). unfold wstep in MW. rewrite Ew, SF in MW. discriminate.
      * unfold sync_free in SF. rewrite Ew in SF. discriminate.
    + apply sync_blocked in SF as [(t & ks & Ew)|(i & c & E & C)].
      * specialize (MW 0). unfold wstep in MW. rewrite Ew in MW. destruct ks as [|k ks]; [discriminate|].
        rewrite F in MW. pose proof (worker_call_total (data s) k (t_inv s T)).
        destruct (worker_call (data s) k) as [[? ?]|]; congruence.
      * exact (crit_moves s i c T F E C (MC i)).
  - exists t. split; [eauto|]. split; [exact Wt|].
    unfold executing in Ex. destruct (worker s) as [|t'|t'|t' ks] eqn:Ew; try discriminate;
      cbn in Ht; injection Ht as ->.
    + right. split; [reflexivity|]. specialize (MW 0). unfold wstep in MW. rewrite Ew in MW.
      destruct (sync_free s) eqn:SF; [discriminate|].
      apply sync_blocked in SF as [(t1 & ks & Ew1)|(i & c & E & C)]; [congruence|].
      exists c. split; [now apply nth_error_In in E|]. destruct (crit c) as [ks|] eqn:Cr; [|congruence].
      exists ks. split; [exact Cr|]. specialize (MC i). unfold cstep in MC. rewrite E, Cr in MC.
      destruct (busy c) as [b|]; [left; congruence|]. destruct ks; [discriminate|right; congruence].
    + left. destruct ks as [|k ks]; [|eauto]. specialize (MW 0). unfold wstep in MW. rewrite Ew in MW. discriminate.
Qed.

(** *** Sufficient conditions *)

(** A property of calls that holds of all programs holds of all calls still to
    be made or under way. *)
Definition client_calls (P : call -> bool) (c : client) : Prop :=
  (forall k ids, busy c = Some (k, ids) -> P k = true) /\
  (forall ks, crit c = Some ks -> forallb P ks = true) /\ forallb (all_calls P) (todo c) = true.
Definition state_calls (P : call -> bool) (s : state) : Prop :=
  (forall c, In c (clients s) -> client_calls P c) /\
  (forall t ks, worker s = WRun t ks -> forallb P ks = true).

Lemma call_step_calls P s i k cr rest s' ev : call_step s i k cr rest = Some (s', ev) ->
  P k = true -> (forall ks, cr = Some ks -> forallb P ks = true) -> forallb (all_calls P) rest = true ->
  worker s' = worker s /\ exists c', clients s' = set_nth (clients s) i c' /\ client_calls P c'.
Proof.
  intros H Pk Pc Pr. apply call_step_shape in H as (_ & d & b & _ & -> & H). split; [reflexivity|].
  eexists. split; [reflexivity|]. repeat split; cbn; auto.
  intros k' ids ->. destruct H as (-> & _). exact Pk.
Qed.

Lemma cstep_calls P s i s' ev : (forall c, In c (clients s) -> client_calls P c) ->
  cstep s i = Some (s', ev) -> (forall c, In c (clients s') -> client_calls P c) /\ worker s' = worker s.
Proof.
  intros C H.
  assert (G : worker s' = worker s /\ exists c', clients s' = set_nth (clients s) i c' /\ client_calls P c').
  { unfold cstep in H. destruct (nth_error (clients s) i) as [c|] eqn:E; [|discriminate].
    destruct (C c (nth_error_In _ _ E)) as (H1 & H2 & H3).
    destruct (busy c) as [[k [|id ids]]|] eqn:B.
    - injection H as <- <-. split; [reflexivity|]. eexists. split; [reflexivity|].
      repeat split; cbn; auto. discriminate.
    - destruct (lookup _ _); [destruct (in_callback s (ser t)); [discriminate|]|]; injection H as <- <-;
        (split; [reflexivity|]); eexists; (split; [reflexivity|]); repeat split; cbn; auto;
        intros k' ids' [= <- <-]; eauto.
    - destruct (crit c) as [[|k ks]|] eqn:Cr.
      + injection H as <- <-. split; [reflexivity|]. eexists. split; [reflexivity|].
        repeat split; cbn; auto; discriminate.
      + specialize (H2 _ eq_refl). cbn in H2. apply andb_true_iff in H2 as [H2 H2'].
        eapply call_step_calls; [exact H|exact H2| |exact H3]. now intros ks' [= <-].
      + destruct (todo c) as [|[k|ks] rest]; [discriminate| |]; cbn in H3; apply andb_true_iff in H3 as [H3 H3'].
        * eapply call_step_calls; [exact H|exact H3|discriminate|exact H3'].
        * destruct (sync_free s); [|discriminate]. injection H as <- <-. split; [reflexivity|].
          eexists. split; [reflexivity|]. repeat split; cbn; auto; try discriminate; now intros ks' [= <-]. }
  destruct G as (G1 & c' & G2 & G3). split; [|exact G1].
  intros e. rewrite G2. intros He. apply in_set_nth in He as [->|He]; auto.
Qed.

Lemma wstep_clients s now s' ev : wstep prog s now = Some (s', ev) -> clients s' = clients s.
Proof.
  unfold wstep. intros H. destruct (worker s) as [|t|t|t [|k ks]].
  - destruct (internal_free s); [|discriminate]. destruct (pick (data s) now) as [d [t|]]; [|discriminate]. now injection H as <- <-.
  - now injection H as <- <-.
  - destruct (sync_free s); [|discriminate]. now injection H as <- <-.
  - now injection H as <- <-.
  - destruct (internal_free s); [|discriminate]. destruct (worker_call (data s) k) as [[d e]|]; [|discriminate].
    now injection H as <- <-.
Qed.

Lemma exec_rule (Q : state -> Prop) : (forall s ch s' ev, Q s -> move prog s ch = Some (s', ev) -> Q s') ->
  forall ps s, Q (start ps) -> treachable prog ps s -> Q s.
Proof.
  intros PR ps s B (path & evs & H). revert H B. generalize (start ps). revert evs.
  induction path as [|ch path IH]; intros evs s0; cbn [exec].
  { intros [= <- <-]. auto. }
  destruct (move prog s0 ch) as [[s1 ev]|] eqn:E; [|discriminate].
  destruct (exec prog s1 path) as [[s2 evs2]|] eqn:E2; [|discriminate]. intros [= <- <-] B.
  eapply IH; [exact E2|]. eapply PR; eassumption.
Qed.

Lemma clients_calls_reachable P ps s : forallb (forallb (all_calls P)) ps = true -> treachable prog ps s ->
  forall c, In c (clients s) -> client_calls P c.
Proof.
  intros Hp. apply (exec_rule (fun s => forall c, In c (clients s) -> client_calls P c)).
  - intros s0 [now|i] s1 ev C E; cbn [move] in E.
    + apply wstep_clients in E. now rewrite E.
    + eapply cstep_calls; eassumption.
  - intros c Hc. cbn in Hc. apply in_map_iff in Hc as (p & <- & Hp'). rewrite forallb_forall in Hp.
    repeat split; cbn; try discriminate. now apply Hp.
Qed.

Lemma worker_calls_reachable P ps s : (forall c, forallb P (prog c) = true) -> treachable prog ps s ->
  forall t ks, worker s = WRun t ks -> forallb P ks = true.
Proof.
  intros PP. apply (exec_rule (fun s => forall t ks, worker s = WRun t ks -> forallb P ks = true)); [|discriminate].
  intros s0 [now|i] s1 ev W; cbn [move].
  - unfold wstep. destruct (worker s0) as [|t|t|t [|k ks]] eqn:Ew.
    + destruct (internal_free s0); [|discriminate]. destruct (pick (data s0) now) as [d [t|]]; [|discriminate].
      intros [= <- <-]. discriminate.
    + intros [= <- <-]. discriminate.
    + destruct (sync_free s0); [|discriminate]. intros [= <- <-].
      cbn. intros t' ks [= _ <-]. apply PP.
    + intros [= <- <-]. discriminate.
    + destruct (internal_free s0); [|discriminate]. destruct (worker_call (data s0) k) as [[d e]|]; [|discriminate].
      intros [= <- <-]. cbn. intros t' ks' [= <- <-]. specialize (W _ _ eq_refl).
      cbn in W. now apply andb_true_iff in W.
  - intros E. apply (cstep_calls (fun _ => true)) in E as [_ ->]; [exact W|].
    intros c _. repeat split; auto.
    + intros ks _. now apply forallb_forall.
    + apply forallb_forall. intros [k|ks] _; [reflexivity|]. now apply forallb_forall.
Qed.

(** Only a cancellation keeps a client busy. *)
Definition busy_kind (s : state) : Prop := forall c k ids, In c (clients s) -> busy c = Some (k, ids) -> only_schedules k = false.
Lemma busy_kind_reachable ps s : treachable prog ps s -> busy_kind s.
Proof.
  apply exec_rule.
  - intros s0 [now|i] s1 ev B; cbn [move]; intros H.
    + apply wstep_clients in H. unfold busy_kind. now rewrite H.
    + apply cstep_shape in H as (c & c' & d & E & -> & H). intros e k ids He Be. cbn in He.
      apply in_set_nth in He as [->|He]; [|eauto].
      destruct H as [(k0 & id & ids0 & Bc & Bc' & _)|[(k0 & _ & Bc' & _)|[(_ & _ & _ & k0 & H)|(_ & Bc' & _)]]]; try congruence.
      * apply nth_error_In in E. eapply B in Bc; [|exact E]. congruence.
      * rewrite Be in H. destruct H as (-> & _ & _ & H). destruct k0; [destruct H|reflexivity|reflexivity].
  - intros c k ids Hc. cbn in Hc. apply in_map_iff in Hc as (p & <- & _). discriminate.
Qed.

(** No periodic task is ever pending or handled. *)
Definition only_one_shots (s : state) : Prop :=
  (forall t, pending (data s) t -> one_shot t = true) /\
  (forall t, handled (worker s) = Some t -> one_shot t = true).

Lemma schedule_pending d u t p c d' id x : Inv d -> schedule d u t p c = Some (d', id) ->
  pending d' x -> pending d x \/ period x = p.
Proof.
  intros I H. destruct (inv_schedule _ _ _ _ _ _ _ I H) as (_ & Z & NZ).
  destruct (N.eq_dec id 0) as [E0|E0]; [apply Z in E0 as [-> _]; auto|].
  destruct (NZ E0) as (_ & _ & _ & B & _). unfold pending. rewrite B, lookup_put.
  destruct (tid x =? id); [intros [= <-]; auto|auto].
Qed.
Lemma cancel_pending d id x : pending (fst (cancel d id)) x -> pending d x.
Proof. unfold pending. rewrite cancel_lookup. destruct (tid x =? id); [discriminate|auto]. Qed.
Lemma cancel_user_pending d u x : pending (fst (cancel_user d u)) x -> pending d x.
Proof. unfold pending. rewrite cancel_user_lookup. destruct (mem _ _); [discriminate|auto]. Qed.

Lemma begin_call_pending d k d' ids r x : Inv d -> not_periodic k = true -> begin_call d k = Some (d', ids, r) ->
  pending d' x -> pending d x \/ one_shot x = true.
Proof.
  intros I NP. destruct k as [u t p c|id|u]; cbn.
  - destruct (schedule d u t p c) as [[d1 id]|] eqn:E; [|discriminate]. intros [= <- <- <-] P.
    destruct (schedule_pending _ _ _ _ _ _ _ _ I E P) as [K|K]; [auto|right].
    unfold one_shot. rewrite K. cbn in NP. now destruct p.
  - destruct (lookup _ _); intros [= <- <- <-]; auto.
  - destruct (lookup _ _); intros [= <- <- <-]; auto.
Qed.
Lemma worker_call_pending d k d' ev x : Inv d -> not_periodic k = true -> worker_call d k = Some (d', ev) ->
  pending d' x -> pending d x \/ one_shot x = true.
Proof.
  intros I NP. destruct k as [u t p c|id|u]; cbn.
  - destruct (schedule d u t p c) as [[d1 id]|] eqn:E; [|discriminate]. intros [= <- <-] P.
    destruct (schedule_pending _ _ _ _ _ _ _ _ I E P) as [K|K]; [auto|right].
    unfold one_shot. rewrite K. cbn in NP. now destruct p.
  - intros [= <- <-] P. left. now apply cancel_pending in P.
  - intros [= <- <-] P. left. now apply cancel_user_pending in P.
Qed.

Definition np_state (s : state) : Prop :=
  TInv s /\ only_one_shots s /\ (forall c, In c (clients s) -> client_calls not_periodic c) /\
  (forall t ks, worker s = WRun t ks -> forallb not_periodic ks = true).

Lemma call_step_np s i k cr rest s' ev x : TInv s -> not_periodic k = true ->
  call_step s i k cr rest = Some (s', ev) -> pending (data s') x -> pending (data s) x \/ one_shot x = true.
Proof.
  intros T NP. unfold call_step. destruct (internal_free s); [|discriminate].
  destruct (begin_call (data s) k) as [[[d [ids|]] r]|] eqn:E; [| |discriminate]; intros [= <- <-];
    cbn [data put_client]; eapply begin_call_pending; eauto using t_inv.
Qed.

Lemma cstep_np s i s' ev x : TInv s -> (forall c, In c (clients s) -> client_calls not_periodic c) ->
  cstep s i = Some (s', ev) -> pending (data s') x -> pending (data s) x \/ one_shot x = true.
Proof.
  intros T C. unfold cstep. destruct (nth_error (clients s) i) as [c|] eqn:E; [|discriminate].
  destruct (C c (nth_error_In _ _ E)) as (H1 & H2 & H3).
  destruct (busy c) as [[k [|id ids]]|] eqn:B.
  - intros [= <- <-]. cbn [data put_client]. unfold pending. rewrite end_by_id. auto.
  - destruct (lookup _ _).
    + destruct (in_callback s (ser t)); [discriminate|]. intros [= <- <-]. cbn [data put_client].
      intros P. left. now apply cancel_pending in P.
    + intros [= <- <-]. auto.
  - destruct (crit c) as [[|k ks]|] eqn:Cr.
    + intros [= <- <-]. auto.
    + specialize (H2 _ eq_refl). cbn in H2. apply andb_true_iff in H2 as [H2 _]. now apply call_step_np.
    + destruct (todo c) as [|[k|ks] rest]; [discriminate| |]; cbn in H3; apply andb_true_iff in H3 as [H3 _].
      * now apply call_step_np.
      * destruct (sync_free s); [|discriminate]. intros [= <- <-]. auto.
Qed.

Lemma np_reachable ps s : (forall c, forallb not_periodic (prog c) = true) ->
  forallb (forallb (all_calls not_periodic)) ps = true -> treachable prog ps s -> only_one_shots s.
Proof.
  intros PP Hp R.
  assert (G : TInv s /\ only_one_shots s /\ treachable prog ps s); [|tauto].
  revert R. apply (exec_rule (fun s => TInv s /\ only_one_shots s /\ treachable prog ps s)).
  - intros s0 ch s1 ev (T & (O1 & O2) & R) E.
    assert (R1 : treachable prog ps s1).
    { destruct R as (path & evs & R). exists (path ++ [ch]), (evs ++ ev). revert R. generalize (start ps).
      revert evs. clear -E. induction path as [|c path IH]; intros evs s; cbn [exec app].
      - intros [= -> <-]. rewrite E. cbn. now rewrite app_nil_r.
      - destruct (move prog s c) as [[s2 ev2]|]; [|discriminate].
        destruct (exec prog s2 path) as [[s3 ev3]|] eqn:X; [|discriminate]. intros [= -> <-].
        rewrite (IH _ _ X). now rewrite app_assoc. }
    split; [eapply move_inv; eassumption|]. split; [|exact R1].
    destruct ch as [now|i]; cbn [move] in E.
    + unfold wstep in E. destruct (worker s0) as [|t|t|t [|k ks]] eqn:Ew.
      * destruct (internal_free s0); [|discriminate]. destruct (pick (data s0) now) as [d [t|]] eqn:P; [|discriminate].
        injection E as <- <-. destruct (pick_effect _ _ _ _ (t_inv _ T) P) as (H1 & _ & H3).
        split; cbn.
        -- intros x. unfold pending. cbn. rewrite H3. destruct (tid x =? tid t); [|apply O1].
           apply O1 in H1. unfold one_shot in H1. destruct (period t); discriminate.
        -- intros x [= <-]. now apply O1.
      * injection E as <- <-. split; [exact O1|exact O2].
      * destruct (sync_free s0); [|discriminate]. injection E as <- <-. split; [exact O1|exact O2].
      * injection E as <- <-. split; [exact O1|discriminate].
      * destruct (internal_free s0); [|discriminate]. destruct (worker_call (data s0) k) as [[d e]|] eqn:W; [|discriminate].
        injection E as <- <-. split; [|exact O2]. intros x Px. cbn in Px.
        eapply worker_call_pending in W; [|apply T| |exact Px]; [destruct W; auto|].
        apply (worker_calls_reachable not_periodic ps s0 PP R) in Ew. cbn in Ew. now apply andb_true_iff in Ew.
    + pose proof (clients_calls_reachable not_periodic ps s0 Hp R) as C. split.
      * intros x Px. eapply cstep_np in E; [|exact T|exact C|exact Px]. destruct E; auto.
      * apply cstep_inv in E as (_ & _ & ->); [exact O2|exact T].
  - split; [apply start_inv|]. split; [split; [|discriminate]|exists [], []; reflexivity].
    unfold pending. discriminate.
Qed.

(** Critical sections make no calls. *)
Definition quiet_sections (s : state) : Prop :=
  forall c, In c (clients s) -> forallb empty_sync (todo c) = true /\
    (forall ks, crit c = Some ks -> ks = [] /\ busy c = None).
Lemma quiet_reachable ps s : forallb (forallb empty_sync) ps = true -> treachable prog ps s -> quiet_sections s.
Proof.
  intros Hp. apply exec_rule.
  - intros s0 [now|i] s1 ev Q E; cbn [move] in E.
    { apply wstep_clients in E. unfold quiet_sections. now rewrite E. }
    assert (CS : forall k rest, call_step s0 i k None rest = Some (s1, ev) -> forallb empty_sync rest = true ->
      quiet_sections s1).
    { intros k rest H Hr. apply call_step_shape in H as (_ & d & b & _ & -> & _). intros e He. cbn in He.
      apply in_set_nth in He as [->|He]; [|auto]. cbn. split; [exact Hr|discriminate]. }
    unfold cstep in E. destruct (nth_error (clients s0) i) as [c|] eqn:Ei; [|discriminate].
    destruct (Q c (nth_error_In _ _ Ei)) as (H1 & H2).
    assert (PC : forall d c', forallb empty_sync (todo c') = true ->
      (forall ks, crit c' = Some ks -> ks = [] /\ busy c' = None) -> quiet_sections (put_client s0 d i c')).
    { intros d c' A1 A2 e He. cbn in He. apply in_set_nth in He as [->|He]; auto. }
    destruct (busy c) as [[k ids]|] eqn:B.
    + assert (Cr : crit c = None).
      { destruct (crit c) as [ks|]; [|reflexivity]. destruct (H2 _ eq_refl). discriminate. }
      destruct ids as [|id ids].
      * injection E as <- <-. apply PC; [exact H1|]. cbn. rewrite Cr. discriminate.
      * destruct (lookup _ _); [destruct (in_callback s0 (ser t)); [discriminate|]|]; injection E as <- <-;
          (apply PC; [exact H1|]); cbn; rewrite Cr; discriminate.
    + destruct (crit c) as [[|k ks]|] eqn:Cr.
      * injection E as <- <-. apply PC; [exact H1|]. discriminate.
      * destruct (H2 _ eq_refl). discriminate.
      * destruct (todo c) as [|[k|ks] rest]; [discriminate| |]; cbn in H1.
        -- eapply CS; eassumption.
        -- destruct (sync_free s0); [|discriminate]. injection E as <- <-. apply andb_true_iff in H1 as [H1 H1'].
           apply PC; [exact H1'|]. cbn. destruct ks; [|discriminate]. now intros ks [= <-].
  - intros c Hc. cbn in Hc. apply in_map_iff in Hc as (p & <- & Hp'). rewrite forallb_forall in Hp.
    split; [now apply Hp|discriminate].
Qed.

Lemma no_client_cancel ps s : treachable prog ps s ->
  forallb (forallb (all_calls only_schedules)) ps = true -> ~ deadlocked prog s.
Proof.
  intros R Hp D. destruct (deadlock_shape ps s R D) as (t & _ & (c & k & id & ids & x & Hc & B & _) & _).
  pose proof (busy_kind_reachable ps s R c k _ Hc B) as K.
  destruct (clients_calls_reachable _ _ _ Hp R c Hc) as (G1 & _). apply G1 in B. congruence.
Qed.

Lemma no_periodic ps s : treachable prog ps s -> (forall c, forallb not_periodic (prog c) = true) ->
  forallb (forallb (all_calls not_periodic)) ps = true -> ~ deadlocked prog s.
Proof.
  intros R PP Hp D. destruct (deadlock_shape ps s R D) as (t & O & _ & W).
  destruct (np_reachable ps s PP Hp R) as [_ O2]. rewrite O2 in O; [discriminate|].
  destruct W as [(k & ks & ->)|(-> & _)]; reflexivity.
Qed.

Lemma no_nested ps s : treachable prog ps s -> (forall c, prog c = []) ->
  forallb (forallb empty_sync) ps = true -> ~ deadlocked prog s.
Proof.
  intros R PP Hp D. destruct (deadlock_shape ps s R D) as (t & _ & _ & W).
  destruct W as [(k & ks & W)|(_ & c & Hc & ks & Cr & W)].
  - pose proof (worker_calls_reachable (fun _ => false) ps s) as G.
    apply G in W; [discriminate| |exact R]. intros c. now rewrite PP.
  - destruct (quiet_reachable ps s Hp R c Hc) as [_ Q]. apply Q in Cr as [-> B]. rewrite B in W.
    destruct W; congruence.
Qed.

End Threads.

(** ** Counterexamples *)

(** A periodic task: the worker picks it and releases the internal mutex; the
    cancellation succeeds and returns; the callback then starts. *)
Definition late_programs : list (list stmt) := [[Do (Sched 1 5 (Some 10) 0); Do (Canc 1)]].
Definition late_path : list choice :=
  [MoveClient 0; MoveWorker 6; MoveClient 0; MoveClient 0; MoveClient 0; MoveWorker 7; MoveWorker 7].
Example late_run : exists s, exec (fun _ => []) (start late_programs) late_path =
  Some (s, [EReturn 0 (Sched 1 5 (Some 10) 0) (RId 1); EErase (Some 0%nat) 0;
            EReturn 0 (Canc 1) (RBool true); EStart 0]).
Proof. eexists. vm_compute. reflexivity. Qed.

Lemma late_witness : exists prog ps s t path s1 evs i s2 path2 s3 evs2,
  treachable prog ps s /\ pending (data s) t /\ exec prog s path = Some (s1, evs) /\
  cstep s1 i = Some (s2, [EReturn i (Canc (tid t)) (RBool true)]) /\
  exec prog s2 path2 = Some (s3, evs2) /\ starts (ser t) evs2 = 1.
Proof.
  exists (fun _ => []), late_programs.
  destruct (exec (fun _ => []) (start late_programs) (firstn 1 late_path)) as [[s evs0]|] eqn:E; [|discriminate E].
  exists s, {| ser := 0; tid := 1; time := 5; period := Some 10; user := 1; cb := 0 |}.
  injection E as <- <-.
  exists [MoveWorker 6; MoveClient 0; MoveClient 0].
  eexists _, _, 0%nat, _, [MoveWorker 7; MoveWorker 7], _, _.
  split; [exists (firstn 1 late_path); eexists; vm_compute; reflexivity|].
  split; [reflexivity|]. split; [vm_compute; reflexivity|]. split; [vm_compute; reflexivity|].
  split; [vm_compute; reflexivity|]. reflexivity.
Qed.

(** A one-shot task: while its callback runs, cancelling it returns at once. *)
Lemma running_witness : exists prog ps s t path s1 evs i s2 r,
  treachable prog ps s /\ pending (data s) t /\ exec prog s path = Some (s1, evs) /\
  cstep s1 i = Some (s2, [EReturn i (Canc (tid t)) r]) /\
  exists ks, worker s2 = WRun t ks.
Proof.
  exists (fun _ => []), [[Do (Sched 1 5 None 0); Do (Canc 1)]].
  destruct (exec (fun _ => []) (start [[Do (Sched 1 5 None 0); Do (Canc 1)]]) [MoveClient 0]) as [[s evs0]|] eqn:E; [|discriminate E].
  exists s, {| ser := 0; tid := 1; time := 5; period := None; user := 1; cb := 0 |}.
  injection E as <- <-.
  exists [MoveWorker 6; MoveWorker 6; MoveWorker 6]. eexists _, _, 0%nat, _, _.
  split; [exists [MoveClient 0]; eexists; vm_compute; reflexivity|].
  split; [reflexivity|]. split; [vm_compute; reflexivity|]. split; [vm_compute; reflexivity|].
  exists []. reflexivity.
Qed.

(** Deadlock between a callback that schedules a task and a client that
    cancels the running periodic task. *)
Definition dead_prog (c : N) : list call := if c =? 0 then [Sched 1 50 None 1] else [].
Lemma deadlock_callback : exists s, treachable dead_prog late_programs s /\ deadlocked dead_prog s.
Proof.
  destruct (exec dead_prog (start late_programs) [MoveClient 0; MoveWorker 6; MoveWorker 6; MoveWorker 6; MoveClient 0])
    as [[s evs]|] eqn:E; [|discriminate E].
  exists s. split; [exists [MoveClient 0; MoveWorker 6; MoveWorker 6; MoveWorker 6; MoveClient 0], evs; exact E|].
  vm_compute in E. injection E as <- <-. split.
  - right. discriminate.
  - intros [now|[|[|i]]]; reflexivity.
Qed.

(** Deadlock without any call from a callback: a client cancels from within
    Synchronize the periodic task whose callback is about to run. *)
Definition sync_programs : list (list stmt) := [[Do (Sched 1 5 (Some 10) 0); Sync [Canc 1]]].
Lemma deadlock_section : exists s, treachable (fun _ => []) sync_programs s /\ deadlocked (fun _ => []) s.
Proof.
  destruct (exec (fun _ => []) (start sync_programs) [MoveClient 0; MoveWorker 6; MoveWorker 6; MoveClient 0; MoveClient 0])
    as [[s evs]|] eqn:E; [|discriminate E].
  exists s. split; [exists [MoveClient 0; MoveWorker 6; MoveWorker 6; MoveClient 0; MoveClient 0], evs; exact E|].
  vm_compute in E. injection E as <- <-. split.
  - right. discriminate.
  - intros [now|[|[|i]]]; reflexivity.
Qed.

(** The hypotheses of the deadlock-freedom theorems are met by executions that
    do exercise the locks. *)
Example no_nested_demo : exists s, treachable (fun _ => []) [[Do (Sched 1 5 (Some 10) 0); Do (Canc 1); Sync []]] s /\
  (exists t, worker s = WRun t []) /\ cstep s 0 = None.
Proof.
  destruct (exec (fun _ => []) (start [[Do (Sched 1 5 (Some 10) 0); Do (Canc 1); Sync []]])
    [MoveClient 0; MoveWorker 6; MoveWorker 6; MoveWorker 6; MoveClient 0])
    as [[s evs]|] eqn:E; [|discriminate E].
  exists s. split; [eexists _, evs; exact E|]. vm_compute in E. injection E as <- <-.
  split; [eexists; reflexivity|reflexivity].
Qed.
