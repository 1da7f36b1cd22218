(** The manager does not crash in the histories without surprises. *)
From Verif Require Import Prelude Ec Lmp LmpSpec EcProofs LmpProofs LmpFits LmpManager LmpLive.
Open Scope N_scope.

Section Random.
Variable rng : nat -> list N.
Variable pieces : list (list N).

(** The packets that may wait. *)
Definition welcome (p : packet) : Prop :=
  acceptable p /\ match p with EncapsulatedPayload d => In d pieces | _ => True end.

Fixpoint safe (p : proc) : Prop :=
  match p with
  | Done => True
  | Panic => False
  | Tell _ k | Air _ k => safe k
  | Features page k => page <= 2 /\ forall f, safe (k f)
  | Handle k => forall h, safe (k h)
  | Draw c k => forall n, safe (k (firstn (key_size c) (rng n)))
  | Hci w k => forall c, w c = true -> safe (k c)
  | Receive w k => forall x, w x = true -> welcome x -> safe (k x)
  | Await _ k | Keypad _ k => forall b, safe (k b)
  end.

Definition ends_well (x : stop) : Prop :=
  match x with Waiting q => safe q | Finished => True | _ => False end.

Definition tidy (l : link) : Prop :=
  Forall welcome (queue l) /\ forall b, ~ In (OobExtendedReply b) (held_command l).

Lemma welcome_rest l o k : conserved l o k -> tidy l -> tidy k.
Proof.
  intros (C & E) (F & G). split.
  - rewrite E in F. apply Forall_app in F. apply F.
  - intros b I. apply (G b). rewrite C. apply in_or_app. auto.
Qed.

Lemma poll_safe e p : (forall page, page <= 2 -> features e page <> None) ->
  forall l n, Forall welcome (queue l) -> safe p -> ends_well (at_stop (poll rng e p l n)).
Proof.
  intros FE. induction p; intros l n Q S; cbn [poll log at_stop safe] in *; try contradiction; auto.
  - destruct S as (S1 & S2). specialize (FE page S1). destruct (features e page); [|congruence]. cbn [log at_stop]. auto.
  - destruct (hci l) as [c|]; [|exact S]. destruct (wanted c) eqn:W; [|exact S]. cbn [log at_stop]. auto.
  - destruct (queue l) as [|x q] eqn:E; [exact S|]. destruct (wanted x) eqn:W; [|exact S]. cbn [log at_stop].
    apply Forall_cons_iff in Q as [Q1 Q2]. apply H; auto.
  - cbn zeta. destruct (queue l) as [|[] q] eqn:E; try exact S; cbn [log at_stop].
    + apply Forall_cons_iff in Q as [_ Q]. destruct (opcode0 =? opcode); [apply H; auto|].
      cbn [queue with_queue]. destruct q as [|[] q]; try exact S. cbn [log at_stop].
      apply Forall_cons_iff in Q as [_ Q]. destruct (opcode1 =? opcode); [apply H; auto|exact S].
    + apply Forall_cons_iff in Q as [_ Q]. destruct (opcode0 =? opcode); [apply H; auto|exact S].
  - destruct (hci l) as [[]|]; try exact S; cbn zeta; cbn [log at_stop]; auto.
Qed.

Lemma spin_safe e first : (forall page, page <= 2 -> features e page <> None) -> safe first ->
  forall fuel p l n, tidy l -> safe p ->
  (exists q k o n', spin rng fuel e first p l n = Ok (q, k, o, n') /\ safe q /\ tidy k) \/
  spin rng fuel e first p l n = Hang.
Proof.
  intros FE S0. induction fuel as [|fuel IH]; intros p l n Q S; cbn [spin]; cbn zeta;
    pose proof (poll_safe e p FE l n (proj1 Q) S) as E; pose proof (poll_conserves rng e p l n) as C;
    destruct (at_stop (poll rng e p l n)) as [q| | |]; try contradiction; auto.
  - left. do 4 eexists. split; [reflexivity|]. split; [exact E|eapply welcome_rest; eauto].
  - left. do 4 eexists. split; [reflexivity|]. split; [exact E|eapply welcome_rest; eauto].
  - destruct (IH first (at_link (poll rng e p l n)) (draws (poll rng e p l n)) (welcome_rest _ _ _ C Q) S0)
      as [(q & k & o & n' & X & Y)|X]; rewrite X; cbn [bind]; [|auto].
    left. do 4 eexists. split; [reflexivity|exact Y].
Qed.

Lemma poll_all_safe e : (forall page, page <= 2 -> features e page <> None) ->
  (forall w a, w <> Manager -> safe (start w a)) ->
  forall ps l n, (forall w p, In (w, p) ps -> w <> Manager /\ safe p) -> tidy l ->
  exists qs k o n', poll_all rng e ps l n = Ok (qs, k, o, n') /\ (forall w p, In (w, p) qs -> w <> Manager /\ safe p) /\
    tidy k.
Proof.
  intros FE S0. induction ps as [|[w p] ps IH]; intros l n S Q; cbn [poll_all].
  - do 4 eexists. split; [reflexivity|]. split; [intros w p []|exact Q].
  - destruct (S w p (or_introl eq_refl)) as (W & SP).
    destruct (spin_safe e (start w (peer l)) FE (S0 w (peer l) W) (Datatypes.S (messages l)) p l n Q SP)
      as [(q & k & o & n' & X & Y & Z)|X]; [|exfalso; exact (spin_ends_too rng e w (peer l) p l n W X)].
    rewrite X. cbn [bind].
    destruct (IH k n' (fun w p I => S w p (or_intror I)) Z) as (qs & k2 & o2 & n2 & X2 & Y2 & Z2). rewrite X2. cbn [bind].
    do 4 eexists. split; [reflexivity|]. split; [|exact Z2]. intros v r [I|I]; [injection I as <- <-; auto|exact (Y2 v r I)].
Qed.

Definition guarded (s : slot) : Prop :=
  tidy (s_link s) /\
  forall ps, s_procs s = Some ps -> forall w p, In (w, p) ps -> w <> Manager /\ safe p.

Lemma tick_safe e : (forall page, page <= 2 -> features e page <> None) ->
  (forall w a, w <> Manager -> safe (start w a)) ->
  forall l n, Forall guarded l ->
  exists l' o n', tick_slots rng e l n = Ok (l', o, n') /\ Forall guarded l' /\ List.length l' = List.length l.
Proof.
  intros FE S0. induction l as [|s l IH]; intros n G; cbn [tick_slots].
  - do 3 eexists. split; [reflexivity|]. auto.
  - apply Forall_cons_iff in G as [[Q P] G].
    destruct (s_procs s) as [ps|] eqn:E.
    + destruct (poll_all_safe e FE S0 ps (s_link s) n (P ps eq_refl) Q) as (qs & k & o & n1 & X & Y & Z).
      rewrite X. cbn [bind]. destruct (IH n1 G) as (l2 & o2 & n2 & X2 & Y2 & Z2). rewrite X2. cbn [bind].
      do 3 eexists. split; [reflexivity|]. split; [constructor; [|exact Y2]|cbn; congruence].
      split; [exact Z|]. cbn. intros ps0 I. injection I as <-. exact Y.
    + cbn [bind]. destruct (IH n G) as (l2 & o2 & n2 & X2 & Y2 & Z2). rewrite X2. cbn [bind].
      do 3 eexists. split; [reflexivity|]. split; [constructor; [|exact Y2]|cbn; congruence].
      split; [exact Q|]. rewrite E. discriminate.
Qed.

(** * The procedures are safe *)

Hypothesis works : keys_work rng pieces.

Definition mates (c : curve) (private : list N) : Prop :=
  forall l, incl l pieces -> List.length l = 3%nat \/ List.length l = 4%nat -> shared_secret c private (concat l) <> None.

Lemma new_key_safe c k : (forall private public, mates c private -> safe (k private public)) -> safe (new_key c k).
Proof.
  intros F n. destruct (works n c) as (private & public & G & D & M). rewrite G, D. apply F. exact M.
Qed.

Lemma chunks_safe k : forall l, safe k -> safe (send_chunks l k).
Proof. induction l as [|d l IH]; intros S; [exact S|]. cbn [send_chunks SendAccepted safe]. intros _. auto. Qed.

Lemma send_key_safe key k : safe k -> safe (send_public_key key k).
Proof. intros S. cbn [send_public_key SendAccepted safe]. intros _. apply chunks_safe. exact S. Qed.

Lemma receive_chunks_safe n : forall got k,
  (forall l, incl l pieces -> List.length l = n -> safe (k (got ++ concat l))) -> safe (receive_chunks n got k).
Proof.
  induction n as [|n IH]; intros got k F; cbn [receive_chunks].
  - specialize (F [] (incl_nil_l _) eq_refl). cbn in F. rewrite app_nil_r in F. exact F.
  - intros x W (_ & X). destruct x; try discriminate W. cbn [safe]. apply IH. intros l I L.
    rewrite <- app_assoc. apply (F (data :: l)); [|cbn; congruence]. intros y [<-|Y]; auto.
Qed.

Definition of_pieces (key : list N) : Prop :=
  exists l, incl l pieces /\ (List.length l = 3%nat \/ List.length l = 4%nat) /\ key = concat l.

Lemma public_key_safe k : (forall c key, of_pieces key -> safe (k c key)) -> safe (receive_public_key k).
Proof.
  intros F x W (A & _). destruct x; try discriminate W. destruct A as [->| ->].
  - apply receive_chunks_safe. intros l I L. apply F. exists l. auto.
  - apply receive_chunks_safe. intros l I L. apply F. exists l. auto.
Qed.

Lemma secret_safe c private key k : mates c private -> of_pieces key -> safe k -> safe (with_secret c private key k).
Proof.
  intros M (l & I & L & ->) S. unfold with_secret. specialize (M l I L).
  destruct (shared_secret c private (concat l)); [exact S|congruence].
Qed.

Lemma both_safe page mask k : page <= 2 -> (forall b, safe (k b)) -> safe (supported_on_both page mask k).
Proof.
  intros P S. split; [exact P|]. intros f. destruct (N.land f mask =? 0); [apply S|]. split; [exact P|].
  intros g x W _. apply S.
Qed.

Lemma challenge_safe k : (forall b, safe (k b)) -> safe (send_challenge k).
Proof. intros S x W _. apply S. Qed.

Lemma challenged_safe k : safe k -> safe (receive_challenge k).
Proof. intros S x W _. exact S. Qed.

Lemma send_commitment_safe x k : is_confirm x = true -> welcome x -> safe k -> safe (send_commitment (value_of x) k).
Proof.
  intros W (A & _) S. destruct x; try discriminate W. cbn in A. subst value. cbn.
  intros _ y Y _. exact S.
Qed.

Lemma receive_commitment_safe x k : is_confirm x = true -> welcome x -> safe k ->
  safe (receive_commitment (Some (value_of x)) k).
Proof.
  intros W (A & _) S. destruct x; try discriminate W. cbn in A. subst value. cbn.
  intros y Y _ _. exact S.
Qed.

Lemma initiator_rounds_safe n k : safe k -> safe (initiator_rounds n k).
Proof.
  intros S. induction n as [|n IH]; [exact S|]. cbn [initiator_rounds safe]. intros x W A.
  apply send_commitment_safe; auto.
Qed.

Lemma responder_rounds_safe n k : safe k -> safe (responder_rounds n k).
Proof.
  intros S. induction n as [|n IH]; [exact S|]. cbn [responder_rounds safe]. intros x W A.
  apply receive_commitment_safe; auto.
Qed.

Lemma initiator_stage1_safe a i m k : (forall b, safe (k b)) -> safe (initiator_stage1 a i m k).
Proof.
  intros S. destruct m; cbn [initiator_stage1].
  - cbn zeta. assert (R : safe (Air (SimplePairingConfirm commitment)
        (Receive is_confirm (fun p => send_commitment (value_of p) (k true))))).
    { intros x W A. apply send_commitment_safe; auto. }
    destruct (is_present (oob i)); [|exact R]. intros c W. destruct c; try discriminate W; [exact R|apply S].
  - intros x W A. apply send_commitment_safe; auto. intros c V. destruct c; try discriminate V; apply S.
  - intros x W A. apply send_commitment_safe; auto. intros c V. destruct c; try discriminate V; apply S.
  - cbn zeta. assert (R : forall x, is_confirm x = true -> welcome x -> safe (send_commitment (value_of x) (initiator_rounds 19 (k true)))).
    { intros x W A. apply send_commitment_safe; auto. apply initiator_rounds_safe. apply S. }
    destruct (is_keyboard (io i)).
    + intros b. destruct b; [exact R|apply S].
    + intros x W A. destruct x; try discriminate W; [apply S|]. apply R; auto.
Qed.

Lemma initiator_stage2_safe a m c k : (forall b, safe (k b)) -> safe (initiator_stage2 a m c k).
Proof.
  intros S b. destruct b; [|apply S]. intros x W A. cbn [safe]. apply challenge_safe. intros b. apply challenged_safe.
  destruct b; apply S.
Qed.

Lemma initiator_keys_safe a i r k : (forall b, safe (k b)) -> safe (initiator_keys a i r k).
Proof.
  intros S. apply both_safe; [lia|]. intros b. cbn zeta. apply new_key_safe. intros private public M. apply send_key_safe.
  apply public_key_safe. intros c key K. apply secret_safe; auto. apply initiator_stage1_safe. intros ok. destruct ok.
  - apply initiator_stage2_safe. exact S.
  - apply S.
Qed.

Lemma bytes_known x y z : x <= 3 /\ y <= 3 /\ z <= 5 ->
  byte_capability x <> None /\ byte_oob y <> None /\ byte_requirements z <> None.
Proof.
  intros (X & Y & Z). repeat split.
  - assert (x = 0 \/ x = 1 \/ x = 2 \/ x = 3) as [->|[->|[->| ->]]] by lia; discriminate.
  - assert (y = 0 \/ y = 1 \/ y = 2 \/ y = 3) as [->|[->|[->| ->]]] by lia; discriminate.
  - assert (z = 0 \/ z = 1 \/ z = 2 \/ z = 3 \/ z = 4 \/ z = 5) as [->|[->|[->|[->|[->| ->]]]]] by lia; discriminate.
Qed.

Lemma pairing_initiate_safe a k : (forall b, safe (k b)) -> safe (pairing_initiate a k).
Proof.
  intros S c W. destruct c; try discriminate W; [|apply S]. intros x V (A & _). destruct x; try discriminate V.
  destruct (bytes_known _ _ _ A) as (B1 & B2 & B3).
  destruct (byte_capability io); [|congruence]. destruct (byte_oob oob); [|congruence].
  destruct (byte_requirements auth); [|congruence]. apply initiator_keys_safe. exact S.
Qed.

Lemma responder_stage1_safe a r m k : (forall b, safe (k b)) -> safe (responder_stage1 a r m k).
Proof.
  intros S. destruct m; cbn [responder_stage1].
  - cbn zeta. assert (R : safe (Receive is_confirm (fun p => receive_commitment (Some (value_of p)) (k (Some false))))).
    { intros x W A. apply receive_commitment_safe; auto. }
    destruct (is_present (oob r)); [|exact R]. intros c W. destruct c; try discriminate W; exact R.
  - intros x W A b c V. destruct c; try discriminate V; apply S.
  - intros x W A b c V. destruct c; try discriminate V; apply S.
  - cbn zeta. assert (R : forall x, is_confirm x = true -> welcome x ->
      safe (receive_commitment (Some (value_of x)) (responder_rounds 19 (k (Some false))))).
    { intros x W A. apply receive_commitment_safe; auto. apply responder_rounds_safe. apply S. }
    destruct (is_keyboard (io r)).
    + intros b x W A. destruct b; [apply R; auto|apply S].
    + intros x W A. destruct x; try discriminate W; [apply R; auto|apply S].
Qed.

Lemma responder_stage2_safe a m c b k : (forall b, safe (k b)) -> safe (responder_stage2 a m c b k).
Proof.
  intros S x W A. destruct x; try discriminate W; [|apply S]. destruct b; [apply S|]. intros b. cbn [safe].
  apply challenged_safe. apply challenge_safe. intros ok. destruct ok; apply S.
Qed.

Lemma responder_keys_safe a i r k : (forall b, safe (k b)) -> safe (responder_keys a i r k).
Proof.
  intros S. apply public_key_safe. intros c key K. apply new_key_safe. intros private public M. apply send_key_safe.
  apply secret_safe; auto. apply responder_stage1_safe. intros [b|]; [|apply S]. apply responder_stage2_safe. exact S.
Qed.

Lemma pairing_respond_safe a x y z k : x <= 3 /\ y <= 3 /\ z <= 5 -> (forall b, safe (k b)) -> safe (pairing_respond a x y z k).
Proof.
  intros A S. destruct (bytes_known _ _ _ A) as (B1 & B2 & B3). unfold pairing_respond.
  destruct (byte_capability x); [|congruence]. destruct (byte_oob y); [|congruence].
  destruct (byte_requirements z); [|congruence]. cbn zeta. intros cc W. destruct cc; try discriminate W; [|apply S].
  apply responder_keys_safe. exact S.
Qed.

Lemma legacy_initiate_safe a k : (forall b, safe (k b)) -> safe (legacy_initiate a k).
Proof.
  intros S c W b x V A. apply challenge_safe. intros ok. apply challenged_safe. destruct ok; apply S.
Qed.

Lemma legacy_respond_safe a k : (forall b, safe (k b)) -> safe (legacy_respond a k).
Proof.
  intros S c W x V A. cbn [safe]. apply challenged_safe. apply challenge_safe. intros ok. destruct ok; apply S.
Qed.

Lemma change_safe : safe encryption_change.
Proof.
  apply both_safe; [lia|]. intros b. destruct b; [|exact (fun _ => Logic.I)]. apply both_safe; [lia|]. intros b h. exact Logic.I.
Qed.

Lemma start_safe w a : w <> Manager -> safe (start w a).
Proof.
  intros W. destruct w; try congruence; cbn [start].
  - intros c V d U. cbn zeta. destruct d; try discriminate U.
    + apply challenge_safe. intros b h. exact Logic.I.
    + cbn [safe]. apply both_safe; [lia|]. intros b. cbn zeta. destruct b.
      * apply pairing_initiate_safe. intros b h. exact Logic.I.
      * apply legacy_initiate_safe. intros b h. exact Logic.I.
  - intros x V A. destruct x; try discriminate V.
    + apply pairing_respond_safe; [apply A|]. intros b. exact Logic.I.
    + intros c U. destruct c; exact Logic.I.
    + apply legacy_respond_safe. intros b. exact Logic.I.
  - intros c V b1 b2 b3. apply change_safe.
  - intros x V _ y U _ z T _. apply change_safe.
  - intros x V (A & _). destruct x; try discriminate V. split; [exact A|]. intros f. exact Logic.I.
Qed.

(** * Histories *)

Definition well (known : list address) (l : list slot) : Prop :=
  sound known l /\ Forall guarded l /\ List.length l = 7%nat.

Lemma at_peer_length b f : forall l, List.length (at_peer b f l) = List.length l.
Proof. induction l as [|s l IH]; [reflexivity|]. cbn [at_peer]. destruct (peer (s_link s) =? b); cbn; congruence. Qed.

Lemma step_safe known e o m : well known (slots m) -> orderly known [(e, o)] ->
  (forall page, page <= 2 -> features e page <> None) ->
  match o with
  | IngestHci c => (forall a, c <> OobExtendedReply a) /\ (forall a, target e c = Some a -> In a known -> waiting a (slots m) = [])
  | IngestLmp _ p => welcome p
  | AddLink _ => (List.length known < 7)%nat
  | RemoveLink a => In a known
  | Tick => True
  | Reset => False
  end ->
  exists m' l, step rng e m o = Ok (m', l) /\ well (linked [(e, o)] known) (slots m').
Proof.
  intros (S & G & L) OR FE OK.
  assert (K : forall m' l, step rng e m o = Ok (m', l) -> Forall guarded (slots m') -> List.length (slots m') = 7%nat ->
    exists m' l, step rng e m o = Ok (m', l) /\ well (linked [(e, o)] known) (slots m')).
  { intros m' l E G2 L2. exists m', l. split; [exact E|]. split; [|auto]. eapply step_sound; eauto. }
  pose proof OR as (OR1 & _).
  destruct o; cbn [step] in K |- *.
  - destruct OK as (NO & PA).
    assert (R : exists v, refusal c INVALID_PARAMETERS = Some v).
    { destruct c; cbn; eauto. exfalso. exact (NO a eq_refl). }
    destruct R as (v & R). rewrite R in K |- *. cbn [answer bind] in K |- *.
    destruct (target e c) as [b|] eqn:TG; [|apply (K m _ eq_refl); assumption].
    destruct (find_peer b (slots m)) as [s|] eqn:FP; [|apply (K m _ eq_refl); assumption].
    assert (IK : In b known).
    { apply S; [congruence|]. destruct (find_peer_some _ _ _ FP) as (I & <-). apply (in_map (fun s => peer (s_link s))). exact I. }
    specialize (PA b eq_refl IK). unfold waiting in PA. rewrite FP in PA. unfold held_command in PA.
    destruct (hci (s_link s)); [discriminate|].
    apply (K _ _ eq_refl); cbn [slots]; [|rewrite at_peer_length; exact L].
    apply forall_at_peer; [exact G|]. intros x ((X1 & X2) & X3) _. split; [split; [exact X1|]|exact X3].
    intros a [I|[]]. exact (NO a I).
  - apply (K _ _ eq_refl); cbn [slots]; [|rewrite at_peer_length; exact L].
    apply forall_at_peer; [exact G|]. intros x ((X1 & X2) & X3) _. split; [split; [|exact X2]|exact X3]. cbn. apply Forall_app. auto.
  - destruct (find_peer EMPTY (slots m)) as [s|] eqn:FP.
    + apply (K _ _ eq_refl); cbn [slots]; [|rewrite at_peer_length; exact L].
      apply forall_at_peer; [exact G|]. intros x (X1 & X2) _. split; [exact X1|]. cbn. intros ps E. injection E as <-.
      intros w p I. change (In (w, p) (map (fun w => (w, start w a)) runners)) in I.
      apply in_map_iff in I as (v & V & W). injection V as <- <-.
      assert (NW : v <> Manager) by (intros ->; cbn in W; intuition discriminate).
      split; [exact NW|]. apply start_safe. exact NW.
    + exfalso. apply find_peer_in in FP. destruct S as (_ & ND & KN).
      assert (F : filter filled (peers (slots m)) = peers (slots m)).
      { clear -FP. induction (peers (slots m)) as [|x l IH]; [reflexivity|]. cbn [filter]. unfold filled at 1.
        rewrite (proj2 (N.eqb_neq x EMPTY)) by (intros ->; apply FP; left; reflexivity). cbn [negb].
        f_equal. apply IH. intros I. apply FP. right. exact I. }
      rewrite F in ND.
      assert (X : (List.length (peers (slots m)) <= List.length known)%nat).
      { apply NoDup_incl_length; [exact ND|]. intros x I. apply KN; [|exact I]. intros ->. contradiction. }
      unfold peers in X. rewrite map_length in X. lia.
  - destruct (find_peer a (slots m)) as [s|] eqn:FP.
    + cbn zeta in K |- *. destruct (find_peer_some _ _ _ FP) as (IS & PS).
      assert (GI : Forall guarded (at_peer a (fun _ => idle_slot) (slots m))).
      { apply forall_at_peer; [exact G|]. intros x _ _. split; [|discriminate]. split; [constructor|]. intros b []. }
      destruct (hci (s_link s)) as [c|] eqn:H.
      * assert (R : exists v, refusal c UNKNOWN_CONNECTION = Some v).
        { destruct c; cbn; eauto. exfalso.
          assert (GS := proj1 (Forall_forall _ _) G s IS). destruct GS as ((_ & GS) & _). apply (GS a0).
          unfold held_command. rewrite H. left. reflexivity. }
        destruct R as (v & R). rewrite R in K |- *. cbn [answer bind] in K |- *.
        apply (K _ _ eq_refl); [exact GI|]. cbn [slots]. rewrite at_peer_length. exact L.
      * apply (K _ _ eq_refl); [exact GI|]. cbn [slots]. rewrite at_peer_length. exact L.
    + exfalso. apply find_peer_in in FP. apply FP. apply S; auto.
  - destruct (tick_safe e FE start_safe (slots m) (drawn m) G) as (l' & o & n' & X & Y & Z). rewrite X in K |- *. cbn [bind] in K |- *.
    apply (K _ _ eq_refl); [exact Y|]. cbn [slots]. congruence.
  - contradiction.
Qed.

Lemma run_app h1 : forall h2 m, run rng m (h1 ++ h2) =
  bind (run rng m h1) (fun r => bind (run rng (fst r) h2) (fun r2 => Ok (fst r2, snd r ++ snd r2))).
Proof.
  induction h1 as [|[e o] h1 IH]; intros h2 m; cbn [app run].
  - cbn [bind fst snd]. destruct (run rng m h2) as [[m2 l2]| | |]; reflexivity.
  - destruct (step rng e m o) as [[m1 l1]| | |]; try reflexivity. cbn [bind]. rewrite IH.
    destruct (run rng m1 h1) as [[m2 l2]| | |]; try reflexivity. cbn [bind fst snd].
    destruct (run rng m2 h2) as [[m3 l3]| | |]; try reflexivity. cbn [bind fst snd]. rewrite app_assoc. reflexivity.
Qed.

Lemma linked_app h1 : forall h2 k, linked (h1 ++ h2) k = linked h2 (linked h1 k).
Proof. induction h1 as [|[e o] h1 IH]; intros h2 k; [reflexivity|]. destruct o; cbn [app linked]; apply IH. Qed.

Lemma run_safe n h : orderly [] h -> incl (payloads h) pieces ->
  (forall h1 e o h2 m l, h = h1 ++ (e, o) :: h2 -> run rng (new_manager n) h1 = Ok (m, l) -> considerate h1 l e o) ->
  exists m l, run rng (new_manager n) h = Ok (m, l) /\ well (linked h []) (slots m) /\ forall e o, In (e, o) h -> o <> Reset.
Proof.
  induction h as [|[e o] h IH] using rev_ind; intros OR PI CO.
  - do 2 eexists. split; [reflexivity|]. split; [|intros e o []]. split; [apply new_sound; exact rng|]. split; [|reflexivity].
    cbn. repeat constructor; cbn; try discriminate; intros ? [].
  - apply orderly_app in OR as (O1 & O2).
    assert (PI1 : incl (payloads h) pieces /\ forall a d, o = IngestLmp a (EncapsulatedPayload d) -> In d pieces).
    { clear -PI. assert (PA : payloads (h ++ [(e, o)]) = payloads h ++ payloads [(e, o)]).
      { clear. induction h as [|[e1 o1] h IH]; [reflexivity|]. cbn [app payloads]. rewrite IH.
        destruct o1; try reflexivity. destruct p; reflexivity. }
      rewrite PA in PI. split; [intros x I; apply PI; apply in_or_app; auto|].
      intros a d ->. apply PI. apply in_or_app. right. left. reflexivity. }
    destruct PI1 as (PI1 & PI2).
    destruct IH as (m & l & R & W & NR); auto.
    { intros h1 e1 o1 h2 m l -> R. apply (CO h1 e1 o1 (h2 ++ [(e, o)]) m l); [rewrite <- app_assoc; reflexivity|exact R]. }
    destruct (CO h e o [] m l eq_refl R) as (FE & C).
    assert (NE : o <> Reset) by (intros ->; exact C).
    destruct (step_safe (linked h []) e o m W O2 FE) as (m' & l' & ST & W').
    { destruct o; try exact C.
      - destruct C as (C1 & C2). split; [exact C1|]. intros a T I. specialize (C2 a T I).
        assert (NA : a <> EMPTY) by (intros ->; apply (proj1 O2); exact T).
        destruct (run_sound rng h [] _ _ _ (new_sound rng n) O1 R) as (_ & X). specialize (X NR a NA).
        rewrite C2 in X. unfold waiting in X at 1. rewrite (proj2 (find_peer_in a _)) in X by (cbn; intuition congruence).
        cbn [app] in X. rewrite <- (app_nil_r (answered a l)) in X at 1. apply app_inv_head in X. auto.
      - split; [exact C|]. destruct p; auto. exact (PI2 _ _ eq_refl). }
    exists m', (l ++ l'). rewrite run_app, R. cbn [bind fst snd run]. rewrite ST. cbn [bind fst snd]. rewrite app_nil_r.
    split; [reflexivity|]. rewrite linked_app. split; [exact W'|]. intros e1 o1 I. apply in_app_or in I as [I|[I|[]]].
    + exact (NR e1 o1 I).
    + injection I as <- <-. exact NE.
Qed.

End Random.

Theorem peace_kept rng n h : peaceful rng n h -> exists m l, run rng (new_manager n) h = Ok (m, l).
Proof.
  intros (OR & K & C). destruct (run_safe rng (payloads h) K n h OR (incl_refl _) C) as (m & l & R & _). eauto.
Qed.
