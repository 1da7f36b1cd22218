(** The filter policies of the LE controller: proofs. *)
From Verif Require Import Prelude Address Rpa Table LeTypes LeAdvertise LeLists LeScan LeInitiate LeHost LeTac LeFrame LeStep LeSets LeOutputs LeHistory.
From Verif Require Import LeListsSpec LeListsProofs LeFilterSpec.
Open Scope N_scope.

Section WithController.
Variable aes : list N -> list N -> list N.
Variable rng : N -> N.
Variable cfg : config.
Notation step := (step aes rng cfg).
Notation history := (history aes rng cfg).

(** * Addresses and identities *)

Definition who (on : bool) (l : list resolving_entry) (a : address_with_type) : address_with_type :=
  match snd (resolve_private_address aes on l a) with Some x => x | None => a end.

Lemma resolve_who a s s' r : resolve aes a s = (s', r) -> r = who (resolving_on s) (resolving s) a.
Proof.
  unfold resolve, who. intros H. destruct (resolve_private_address _ _ _ _) as [l x] eqn:E. injection H as <- <-. reflexivity.
Qed.

Lemma loop_ident l : forall l' a, map ident l' = map ident l -> snd (resolve_loop aes a l') = snd (resolve_loop aes a l).
Proof.
  induction l as [|e l IH]; intros [|e' l'] a H; try discriminate; [reflexivity|]. cbn [map] in H. injection H as H1 H2 H3 H4 H5.
  cbn [resolve_loop]. rewrite H3. destruct (matches_irk _ _ _); [cbn [snd]; now rewrite H1, H2|].
  specialize (IH l' a H5). destruct (resolve_loop aes a l'), (resolve_loop aes a l). exact IH.
Qed.
Lemma who_ident on l l' a : map ident l' = map ident l -> who on l' a = who on l a.
Proof.
  intros H. unfold who, resolve_private_address. destruct (negb (is_rpa a)); [reflexivity|]. destruct (negb on); [reflexivity|].
  now rewrite (loop_ident l l' a H).
Qed.
Lemma who_off l l' a : who false l a = who false l' a.
Proof. unfold who, resolve_private_address. destruct (negb (is_rpa a)); reflexivity. Qed.

Lemma loop_known l : forall a,
  (snd (resolve_loop aes a l) = None /\ forall e, In e l -> matches_irk aes a (peer_irk e) = false)
  \/ exists e, In e l /\ matches_irk aes a (peer_irk e) = true
       /\ snd (resolve_loop aes a l) = Some (peer_device_address (peer_identity_address e) (peer_identity_type e)).
Proof.
  induction l as [|e l IH]; intros a; cbn [resolve_loop]; [left; split; [reflexivity|intros ? []]|].
  destruct (matches_irk aes a (peer_irk e)) eqn:M; [right; exists e; cbn [snd]; auto with datatypes|].
  specialize (IH a). destruct (resolve_loop aes a l) as [l' r]. cbn [snd] in *.
  destruct IH as [(-> & A)|(x & I & X & ->)].
  - left. split; [reflexivity|]. intros x [<-|I]; auto.
  - right. exists x. auto with datatypes.
Qed.
Lemma who_known s a : known_as aes s a (who (resolving_on s) (resolving s) a).
Proof.
  unfold known_as, who, resolve_private_address. destruct (is_rpa a) eqn:P; cbn [negb].
  - destruct (resolving_on s) eqn:ON; cbn [negb]; [|left; auto].
    destruct (loop_known (resolving s) a) as [(-> & A)|(e & I & M & ->)]; [left; auto|].
    right. split; [reflexivity|]. exists e. destruct (peer_identity_type e) eqn:K; auto.
  - left. cbn [snd]. split; [reflexivity|]. right. intros e _. unfold matches_irk. now rewrite P.
Qed.

Lemma contains_listed s a : accept_contains s a = true <-> on_accept_list s a.
Proof.
  unfold accept_contains, on_accept_list, listed. destruct a as [a t]. cbn [awt_type awt_addr]. rewrite existsb_exists. split.
  - intros ((t' & a') & I & M). apply accept_match_spec in M. eauto.
  - intros (t' & a' & I & M). exists (t', a'). split; [exact I|]. now apply accept_match_spec.
Qed.

(** * The scanner *)

(** What the scanner sends on reception of a packet of [adv], who is [i] *)
Definition scan_says (adv i : address_with_type) (x : output) : Prop :=
  match x with
  | Notified e => reported e = Some i
  | Sent (AirScan _ b) => b = adv
  | Sent _ => False
  end.

Definition passes (s : le) (i : address_with_type) : Prop :=
  scan_enabled (scan s) = true /\ (listed_only (scan_filter (scan s)) -> on_accept_list s i).
Lemma filter_passes s i : scan_filter_ok s i = true -> listed_only (scan_filter (scan s)) -> on_accept_list s i.
Proof.
  unfold scan_filter_ok. intros H [E|E]; rewrite E in H; cbn [scan_uses_list negb orb] in H; now apply contains_listed.
Qed.
Lemma passes_filter s i : (listed_only (scan_filter (scan s)) -> on_accept_list s i) -> scan_filter_ok s i = true.
Proof.
  unfold scan_filter_ok, listed_only. intros H. destruct (scan_filter (scan s)) eqn:E; cbn [scan_uses_list negb orb]; try reflexivity; apply contains_listed, H; auto.
Qed.

Lemma pending_find_in a l r : pending_find a l = Some r -> exists r', In (a, r') l.
Proof.
  unfold pending_find. destruct (find _ _) as [[b r']|] eqn:F; [|discriminate]. apply find_some in F as [I E]. cbn [fst] in E. apply awt_eqb_eq in E. subst. eauto.
Qed.

Lemma send_scan_says now adv res b1 b2 b3 b4 x y s s' o :
  send_scan_request aes rng now adv res b1 b2 b3 b4 x y s = Some (s', o) ->
  Forall (scan_says adv res) o /\ forall p, In p (scan_pending (scan s')) -> In p (scan_pending (scan s)) \/ fst p = adv.
Proof.
  unfold send_scan_request. intros H. destruct (_ || _) in H; [injection H as <- <-; split; [constructor|auto]|].
  destruct (generate _ _ _ _ _) as [s1 r] eqn:G. apply generate_frame in G as (l & p & -> & _). destruct (scanning_address _ _); [|discriminate]. injection H as <- <-.
  split; [outs; reflexivity|]. le_simpl. intros q [<-|I]; auto.
Qed.
Lemma filter_duplicate_pending p s s' b : filter_duplicate p s = (s', b) -> scan_pending (scan s') = scan_pending (scan s).
Proof. intros H. destruct (filter_duplicate_frame _ _ _ _ H) as (h & ->). le_simpl. reflexivity. Qed.

(** [says s adv s' o]: the packet was dropped, or its advertiser passes the filter *)
Definition heard (s : le) (adv : address_with_type) (s' : le) (o : list output) : Prop :=
  let i := who (resolving_on s) (resolving s) adv in
  Forall (fun x => passes s i /\ scan_says adv i x) o
  /\ forall p, In p (scan_pending (scan s')) -> In p (scan_pending (scan s)) \/ (fst p = adv /\ passes s i).
Lemma heard_nothing s adv s' : scan_pending (scan s') = scan_pending (scan s) -> heard s adv s' [].
Proof. intros E. split; [constructor|]. rewrite E. auto. Qed.

Lemma scan_legacy_says now adv tgt t d s s' o : scan_legacy_pdu aes rng now adv tgt t d s = Some (s', o) -> heard s adv s' o.
Proof.
  unfold scan_legacy_pdu. intros H.
  destruct (scan_enabled (scan s)) eqn:EN; cbn [negb] in H; [|injection H as <- <-; now apply heard_nothing].
  destruct (resolve aes adv s) as [s1 r] eqn:R. pose proof (resolve_who _ _ _ _ R) as W. apply resolve_frame in R as (l & -> & _).
  destruct (scan_filter_ok _ r) eqn:F; cbn [negb] in H; [|injection H as <- <-; now apply heard_nothing].
  destruct (if match t with PDU_DIRECT => true | _ => false end then _ else _); [|injection H as <- <-; now apply heard_nothing].
  destruct (filter_duplicate _ _) as [s2 f] eqn:FD. pose proof (filter_duplicate_pending _ _ _ _ FD) as PD. le_simpl_in PD.
  destruct (send_scan_request _ _ _ _ _ _ _ _ _ _ _ _) as [[s3 o3]|] eqn:S; [|discriminate].
  injection H as <- <-. apply send_scan_says in S as [S1 S2]. unfold heard. cbv zeta. rewrite <- W.
  assert (P : passes s r) by (split; [exact EN|]; intros L; apply (filter_passes _ _ F L)).
  split; [|intros p I; apply S2 in I; rewrite PD in I; tauto].
  apply Forall_forall. intros x I. split; [exact P|]. revert x I. apply Forall_forall. outs; try exact S1; reflexivity.
Qed.
Lemma scan_extended_says now adv tgt c sc dir sid pw pr se pi d s s' o :
  scan_extended_pdu aes rng cfg now adv tgt c sc dir sid pw pr se pi d s = Some (s', o) -> heard s adv s' o.
Proof.
  unfold scan_extended_pdu. intros H.
  destruct (scan_enabled (scan s)) eqn:EN; cbn [negb] in H; [|injection H as <- <-; now apply heard_nothing].
  do 3 (destruct (_ : bool) in H at 1; [injection H as <- <-; now apply heard_nothing|]).
  destruct (resolve aes adv s) as [s1 r] eqn:R. pose proof (resolve_who _ _ _ _ R) as W. apply resolve_frame in R as (l & -> & _).
  destruct (scan_filter_ok _ r) eqn:F; cbn [negb] in H; [|injection H as <- <-; now apply heard_nothing].
  destruct (if dir then _ else _); [|injection H as <- <-; now apply heard_nothing].
  destruct (filter_duplicate _ _) as [s2 f] eqn:FD. pose proof (filter_duplicate_pending _ _ _ _ FD) as PD. le_simpl_in PD.
  destruct (send_scan_request _ _ _ _ _ _ _ _ _ _ _ _) as [[s3 o3]|] eqn:S; [|discriminate].
  injection H as <- <-. apply send_scan_says in S as [S1 S2]. unfold heard. cbv zeta. rewrite <- W.
  assert (P : passes s r) by (split; [exact EN|]; intros L; apply (filter_passes _ _ F L)).
  split; [|intros p I; apply S2 in I; rewrite PD in I; tauto].
  apply Forall_forall. intros x I. split; [exact P|]. revert x I. apply Forall_forall.
  apply Forall_app; split; [|exact S1]. apply forall_if. intros B.
  apply Forall_forall. intros x IN. apply in_map_iff in IN as (f' & <- & _). reflexivity.
Qed.
Lemma scan_response_says adv dst d s s' o : receive_scan_response aes adv dst d s = (s', o) ->
  (forall p, In p (scan_pending (scan s')) -> In p (scan_pending (scan s))) /\
  (forall x, In x o -> scan_enabled (scan s) = true /\ (exists r, In (adv, r) (scan_pending (scan s))) /\
    exists e, x = Notified e /\ reported e = Some (who (resolving_on s) (resolving s) adv)).
Proof.
  unfold receive_scan_response. intros H.
  destruct (scan_enabled (scan s)) eqn:EN; cbn [negb] in H; [|injection H as <- <-; split; [auto|intros ? []]].
  destruct (pending_find _ _) as [q|] eqn:P; [|injection H as <- <-; split; [auto|intros ? []]].
  apply pending_find_in in P.
  destruct (resolve aes adv s) as [s1 r] eqn:R. pose proof (resolve_who _ _ _ _ R) as W. apply resolve_frame in R as (l & -> & _). le_simpl_in H.
  destruct (filter_duplicate _ _) as [s2 f] eqn:FD. pose proof (filter_duplicate_pending _ _ _ _ FD) as PD. le_simpl_in PD.
  injection H as <- <-. split.
  - rewrite PD. intros p I. now apply filter_In in I.
  - intros x I. split; [reflexivity|]. split; [exact P|]. rewrite <- W. apply in_app_iff in I as [I|I].
    + destruct (_ && _) in I; [|destruct I]. destruct I as [<-|[]]. eexists. split; reflexivity.
    + destruct (_ && _) in I; [|destruct I]. apply in_map_iff in I as (f' & <- & _). eexists. split; reflexivity.
Qed.
End WithController.
