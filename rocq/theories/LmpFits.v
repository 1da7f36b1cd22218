(** The trees of the procedures fit their automata. *)
From Verif Require Import Prelude Ec Lmp LmpSpec EcProofs LmpProofs.
Open Scope N_scope.

Section To.
Variable a : address.
Notation fits := (fits a).

(** * Parts that an automaton does not look at *)

Definition calm_action (x : action) : bool :=
  match x with
  | Sent (IoCapabilityReq _ _ _ | IoCapabilityRes _ _ _ | EncapsulatedHeader _ | EncapsulatedPayload _) => false
  | Heard (IoCapabilityReq _ _ _ | IoCapabilityRes _ _ _ | NotAcceptedExt _ _ | Other) => false
  | Sent _ | Heard _ | Looked _ _ => true
  | _ => false
  end.

Definition calm (M : machine) (s : state M) : Prop :=
  pausing M s = true /\ forall x, calm_action x = true -> next M s x = Some s.

Section Calm.
Variable M : machine.
Variable s : state M.
Hypothesis CALM : calm M s.
Let Z := proj1 CALM.
Let C := proj2 CALM.

Lemma air_calm p k : calm_action (Sent p) = true -> fits M s k -> fits M s (Air p k).
Proof. intros A F. apply after_same; auto. Qed.

Lemma receive_calm w k : (forall x, w x = true -> calm_action (Heard x) = true) ->
  (forall x, w x = true -> fits M s (k x)) -> fits M s (Receive w k).
Proof. intros A F. split; [exact Z|]. intros x W. apply after_same; auto. Qed.

Lemma await_calm o k : fits M s (k true) -> fits M s (k false) -> fits M s (Await o k).
Proof.
  intros A B. cbn [LmpProofs.fits]. repeat split; intros; try exact Z; try (apply C; reflexivity); apply after_same; auto.
Qed.

Lemma accepted_calm p o k : calm_action (Sent p) = true -> (forall b, fits M s (k b)) -> fits M s (SendAccepted p o k).
Proof. intros A F. apply air_calm; auto. apply await_calm; auto. Qed.

Lemma challenge_calm k : (forall b, fits M s (k b)) -> fits M s (send_challenge k).
Proof.
  intros F. apply air_calm; [reflexivity|]. apply receive_calm; intros x X; [|apply F].
  destruct x; try discriminate; reflexivity.
Qed.

Lemma challenged_calm k : fits M s k -> fits M s (receive_challenge k).
Proof.
  intros F. apply receive_calm; intros x X; [destruct x; try discriminate; reflexivity|].
  apply air_calm; auto.
Qed.

Lemma features_calm page k : (forall f, fits M s (k f)) -> fits M s (features_initiate page k).
Proof.
  intros F f. apply after_same; [apply C; reflexivity|]. apply air_calm; [reflexivity|].
  apply receive_calm; intros x X; [destruct x; try discriminate; reflexivity|]. apply F.
Qed.

Lemma both_calm page mask k : (forall b, fits M s (k b)) -> fits M s (supported_on_both page mask k).
Proof.
  intros F f. apply after_same; [apply C; reflexivity|]. destruct (N.land f mask =? 0); auto.
  apply features_calm. auto.
Qed.

Lemma received_calm n : forall got k, (forall key, fits M s (k key)) -> fits M s (receive_chunks n got k).
Proof.
  induction n as [|n IH]; intros got k F; cbn [receive_chunks]; auto.
  apply receive_calm; intros x X; [destruct x; try discriminate; reflexivity|]. apply air_calm; auto.
Qed.

Lemma public_key_calm k : (forall c key, fits M s (k c key)) -> fits M s (receive_public_key k).
Proof.
  intros F. apply receive_calm; intros x X; [destruct x; try discriminate; reflexivity|].
  destruct x; try discriminate. destruct (N.eq_dec len 48) as [->|D1].
  - apply air_calm; [reflexivity|]. apply received_calm. auto.
  - destruct (N.eq_dec len 64) as [->|D2].
    + apply air_calm; [reflexivity|]. apply received_calm. auto.
    + do 8 (try destruct len as [|len]; try exact Logic.I; try (destruct len; try exact Logic.I)); congruence.
Qed.

Lemma send_commitment_calm v k : fits M s k -> fits M s (send_commitment v k).
Proof.
  intros F. unfold send_commitment. destruct (negb _); [exact Logic.I|].
  apply accepted_calm; [reflexivity|]. intros _.
  apply receive_calm; intros x X; [destruct x; try discriminate; reflexivity|]. apply air_calm; auto.
Qed.

Lemma receive_commitment_calm v k : fits M s k -> fits M s (receive_commitment v k).
Proof.
  intros F. unfold receive_commitment. destruct (match v with Some _ => _ | None => _ end); [exact Logic.I|].
  apply air_calm; [reflexivity|].
  apply receive_calm; intros x X; [destruct x; try discriminate; reflexivity|]. apply air_calm; [reflexivity|].
  apply accepted_calm; auto.
Qed.

Lemma is_confirm_calm x : is_confirm x = true -> calm_action (Heard x) = true.
Proof. destruct x; try discriminate; reflexivity. Qed.

Lemma initiator_rounds_calm n k : fits M s k -> fits M s (initiator_rounds n k).
Proof.
  intros F. induction n as [|n IH]; cbn [initiator_rounds]; auto.
  apply air_calm; [reflexivity|]. apply receive_calm; [exact is_confirm_calm|]. intros x X.
  apply send_commitment_calm. exact IH.
Qed.

Lemma responder_rounds_calm n k : fits M s k -> fits M s (responder_rounds n k).
Proof.
  intros F. induction n as [|n IH]; cbn [responder_rounds]; auto.
  apply receive_calm; [exact is_confirm_calm|]. intros x X.
  apply receive_commitment_calm. exact IH.
Qed.

Lemma secret_calm c private public k : fits M s k -> fits M s (with_secret c private public k).
Proof. intros F. unfold with_secret. destruct (shared_secret c private public); [exact F|exact Logic.I]. Qed.

(** The automaton does not look at the public key either. *)
Hypothesis K : forall x, next M s (Sent (EncapsulatedHeader x)) = Some s.
Hypothesis K2 : forall x, next M s (Sent (EncapsulatedPayload x)) = Some s.

Lemma send_chunks_calm l k : fits M s k -> fits M s (send_chunks l k).
Proof.
  intros F. induction l as [|d l IH]; cbn [send_chunks]; auto.
  apply after_same; [apply K2|].
  change (fits M s (Await ENCAPSULATED_PAYLOAD (fun _ => send_chunks l k))). apply await_calm; exact IH.
Qed.

Lemma send_key_calm key k : fits M s k -> fits M s (send_public_key key k).
Proof.
  intros F. apply after_same; [apply K|].
  change (fits M s (Await ENCAPSULATED_HEADER (fun _ => send_chunks (chunks (List.length key / 16) key) k))).
  apply await_calm; apply send_chunks_calm; exact F.
Qed.

End Calm.

(** * Walking along a tree *)

Lemma tell_step M s t e k : next M s (Said e) = Some t -> fits M t k -> fits M s (Tell e k).
Proof. intros E F. cbn [LmpProofs.fits]. unfold after. rewrite E. exact F. Qed.

Lemma air_step M s t p k : next M s (Sent p) = Some t -> fits M t k -> fits M s (Air p k).
Proof. intros E F. cbn [LmpProofs.fits]. unfold after. rewrite E. exact F. Qed.

Lemma handle_step M s k : (forall h, exists t, next M s (Named h) = Some t /\ fits M t (k h)) -> fits M s (Handle k).
Proof. intros F h. destruct (F h) as (t & E & G). unfold after. rewrite E. exact G. Qed.

Lemma draw_step M s c k : (forall r, exists t, next M s (Drew c r) = Some t /\ fits M t (k r)) -> fits M s (Draw c k).
Proof. intros F h. destruct (F h) as (t & E & G). unfold after. rewrite E. exact G. Qed.

Lemma hci_step M s w k : pausing M s = true -> (forall c, w c = true -> addressed a c -> exists t, next M s (Took c) = Some t /\ fits M t (k c)) ->
  fits M s (Hci w k).
Proof. intros Z F. split; [exact Z|]. intros c W A. destruct (F c W A) as (t & E & G). unfold after. rewrite E. exact G. Qed.

Lemma receive_step M s w k : pausing M s = true -> (forall x, w x = true -> exists t, next M s (Heard x) = Some t /\ fits M t (k x)) ->
  fits M s (Receive w k).
Proof. intros Z F. split; [exact Z|]. intros c W. destruct (F c W) as (t & E & G). unfold after. rewrite E. exact G. Qed.

Lemma keypad_step M s a0 k : pausing M s = true ->
  (forall b v, exists t u, next M s (Took (PasskeyReply b v)) = Some t /\
     next M t (Said (Complete kPasskeyReply SUCCESS a0)) = Some u /\ fits M u (k true)) ->
  (forall b, exists t u, next M s (Took (PasskeyNegative b)) = Some t /\
     next M t (Said (Complete kPasskeyNegative SUCCESS a0)) = Some u /\ fits M u (k false)) ->
  (forall b, exists t, next M s (Took (Keypress b)) = Some t /\
     next M t (Said (Complete kKeypress SUCCESS a0)) = Some s) ->
  fits M s (Keypad a0 k).
Proof.
  intros Z A B C. cbn [LmpProofs.fits]. unfold after. split; [exact Z|]. repeat split; intros b.
  - intros v. destruct (A b v) as (t & u & X & Y & F). rewrite X, Y. exact F.
  - destruct (B b) as (t & u & X & Y & F). rewrite X, Y. exact F.
  - destruct (C b) as (t & X & Y). rewrite X, Y. reflexivity.
Qed.

Lemma new_key_step M s c k :
  (forall r, exists t, next M s (Drew c r) = Some t /\
     forall private public, generate c r = Some private -> derive c private = Some public -> fits M t (k private public)) ->
  fits M s (new_key c k).
Proof.
  intros F. apply draw_step. intros r. destruct (F r) as (t & E & G). exists t. split; [exact E|].
  destruct (generate c r) as [private|] eqn:A; [|exact Logic.I].
  destruct (derive c private) as [public|] eqn:B; [|exact Logic.I]. eauto.
Qed.

Ltac calmly :=
  let x := fresh in let X := fresh in
  split; [reflexivity|]; intros x X; destruct x as [?e|?p|?c|?p|? ?|?|? ?]; try discriminate X; try reflexivity;
  match goal with p : packet |- _ => destruct p; try discriminate X; reflexivity end.

Ltac compute_next := first [reflexivity | cbn; rewrite ?N.eqb_refl; reflexivity].

Ltac crawl1 :=
  lazymatch goal with
  | |- forall _, _ => intro
  | |- fits _ _ Done => reflexivity
  | |- fits _ _ Panic => exact Logic.I
  | |- fits _ _ (Tell (LinkKeyNotification _ (link_key_type _ ?c) _) _) =>
      first [eapply tell_step; [compute_next|]
            | lazymatch c with (if ?b then _ else _) => destruct b | _ => destruct c end; (eapply tell_step; [compute_next|])]
  | |- fits _ _ (Tell _ _) => eapply tell_step; [compute_next|]
  | |- fits _ _ (Air _ _) => eapply air_step; [compute_next|]
  | |- fits _ _ (SendAccepted _ _ _) => apply accepted_calm; [calmly|reflexivity|intro]
  | |- fits _ _ (send_challenge _) => first [apply challenge_calm; [calmly|intro] | unfold send_challenge]
  | |- fits _ _ (receive_challenge _) => apply challenged_calm; [calmly|]
  | |- fits _ _ (supported_on_both _ _ _) => apply both_calm; [calmly|intro]
  | |- fits _ _ (receive_public_key _) => apply public_key_calm; [calmly|intros ? ?]
  | |- fits _ _ (send_public_key _ _) => apply send_key_calm; [calmly|intro; compute_next|intro; compute_next|]
  | |- fits _ _ (send_commitment _ _) => apply send_commitment_calm; [calmly|]
  | |- fits _ _ (receive_commitment _ _) => apply receive_commitment_calm; [calmly|]
  | |- fits _ _ (initiator_rounds _ _) => apply initiator_rounds_calm; [calmly|]
  | |- fits _ _ (responder_rounds _ _) => apply responder_rounds_calm; [calmly|]
  | |- fits _ _ (with_secret _ _ _ _) => apply secret_calm
  | |- fits _ _ (new_key _ _) => apply new_key_step; intro; eexists; split; [compute_next|intros ? ? ? ?]
  | |- fits _ _ (Handle _) => apply handle_step; intro; eexists; split; [compute_next|]
  | |- fits _ _ (Hci _ _) =>
      apply hci_step; [reflexivity|]; let c := fresh "c" in let W := fresh "W" in let A := fresh "A" in
      intros c W A; destruct c; try discriminate W; clear W; cbn in A; first [subst | clear A];
      eexists; (split; [compute_next|])
  | |- fits _ _ (Receive _ _) =>
      apply receive_step; [reflexivity|]; let c := fresh "c" in let W := fresh "W" in
      intros c W; destruct c; try discriminate W; clear W; eexists; (split; [compute_next|])
  | |- fits _ _ (Keypad _ _) =>
      apply keypad_step; intros;
      [ reflexivity
      | eexists; eexists; split; [compute_next|split; [compute_next|]]
      | eexists; eexists; split; [compute_next|split; [compute_next|]]
      | eexists; split; compute_next ]
  | |- fits _ _ (if ?b then _ else _) => destruct b eqn:?; try discriminate
  | |- fits _ _ (match ?x with _ => _ end) => destruct x eqn:?
  | |- fits _ _ (let x := _ in _) => cbn zeta
  | |- fits _ _ (pairing_initiate _ _) => unfold pairing_initiate
  | |- fits _ _ (pairing_respond _ _ _ _ _) => unfold pairing_respond
  | |- fits _ _ (initiator_keys _ _ _ _) => unfold initiator_keys
  | |- fits _ _ (responder_keys _ _ _ _) => unfold responder_keys
  | |- fits _ _ (initiator_stage1 _ _ _ _) => unfold initiator_stage1
  | |- fits _ _ (responder_stage1 _ _ _ _) => unfold responder_stage1
  | |- fits _ _ (initiator_stage2 _ _ _ _) => unfold initiator_stage2
  | |- fits _ _ (responder_stage2 _ _ _ _ _) => unfold responder_stage2
  | |- fits _ _ (legacy_initiate _ _) => unfold legacy_initiate
  | |- fits _ _ (legacy_respond _ _) => unfold legacy_respond
  | |- fits _ _ (user_confirmation_request _ _) => unfold user_confirmation_request
  | |- fits _ _ (user_passkey_request _ _) => unfold user_passkey_request
  | |- fits _ _ (remote_oob_data_request _ _) => unfold remote_oob_data_request
  | |- fits _ _ encryption_change => unfold encryption_change
  | |- fits _ _ ((fun _ => _) _) => cbv beta
  end.

Ltac crawl := repeat crawl1.

(** ** Answers *)

Lemma answering w : w <> Manager -> forall s, resting (Answering a) s = true -> fits (Answering a) s (start w a).
Proof.
  intros W [c|] R; [discriminate|]. clear R. destruct w; [congruence| | | | |]; cbn [start].
  - unfold authentication_initiate. crawl.
  - unfold authentication_respond. crawl.
  - unfold encryption_initiate. crawl.
  - unfold encryption_respond. crawl.
  - unfold features_respond. crawl. cbn [LmpProofs.fits]. intros f. unfold after. cbn. reflexivity.
Qed.

(** ** Authentication *)

Lemma authenticating s : resting Authentication s = true -> fits Authentication s (start Authenticating a).
Proof.
  destruct s; try discriminate. intros _. cbn [start]. unfold authentication_initiate. crawl.
Qed.

(** ** Pairing *)

Lemma pairing_as_initiator s : resting (Pairing refuses true a) s = true -> fits (Pairing refuses true a) s (start Authenticating a).
Proof.
  destruct s; try discriminate; intros _; cbn [start]; unfold authentication_initiate; crawl.
Qed.

Lemma pairing_as_responder s :
  resting (Pairing refuses_heeded false a) s = true -> fits (Pairing refuses_heeded false a) s (start Authenticated a).
Proof.
  destruct s; try discriminate; intros _; cbn [start]; unfold authentication_respond; crawl.
Qed.

(** ** Association *)

Lemma method_association i r :
  match authentication_method i r with
  | JustWorks => association_of i r = Unconfirmed
  | UserConfirm => association_of i r = Confirmed
  | PasskeyEntry => association_of i r = Entered
  | OutOfBand => association_of i r = Carried
  end.
Proof. destruct i as [[] [] []], r as [[] [] []]; reflexivity. Qed.

Lemma same3_refl x : same3 x x = true.
Proof. unfold same3. rewrite !N.eqb_refl. reflexivity. Qed.

Lemma capability_inv b c : byte_capability b = Some c -> capability_byte c = b.
Proof. destruct b as [|[[]|[]|]]; cbn; try discriminate; intros H; injection H as <-; reflexivity. Qed.
Lemma oob_inv b c : byte_oob b = Some c -> oob_byte c = b.
Proof. destruct b as [|[[]|[]|]]; cbn; try discriminate; intros H; injection H as <-; reflexivity. Qed.
Lemma requirements_inv b c : byte_requirements b = Some c -> requirements_byte c = b.
Proof. destruct b as [|[[[]|[]|]|[[]|[]|]|]]; cbn; try discriminate; intros H; injection H as <-; reflexivity. Qed.

Ltac associated :=
  try match goal with Q : authentication_method ?i ?r = _ |- _ =>
    let X := fresh "X" in pose proof (method_association i r) as X; rewrite Q in X end;
  cbn -[association_of]; unfold same3; cbn [fst snd]; rewrite ?N.eqb_refl; cbn -[association_of];
  repeat match goal with X : association_of ?i ?r = _ |- context [association_of ?i ?r] => rewrite X end; cbn;
  first [ reflexivity
        | match goal with H : is_keyboard (io ?i) = _ |- _ =>
            revert H; destruct (io i); intros H; try discriminate H; reflexivity end
        | match goal with H : is_present (oob ?i) = _ |- _ =>
            revert H; destruct (oob i); intros H; try discriminate H; reflexivity end ].

Ltac compute_next ::= first [reflexivity | cbn; rewrite ?N.eqb_refl; reflexivity | associated].

Ltac bytes_known :=
  repeat match goal with
  | H : byte_capability _ = Some _ |- _ => apply capability_inv in H; subst
  | H : byte_oob _ = Some _ |- _ => apply oob_inv in H; subst
  | H : byte_requirements _ = Some _ |- _ => apply requirements_inv in H; subst
  end.

Ltac crawl2 :=
  lazymatch goal with
  | |- fits _ _ (match byte_requirements ?z with _ => _ end) => destruct (byte_requirements z) eqn:?; bytes_known
  | _ => crawl1
  end.

Lemma associating s : fits (Association true a) s (start Authenticating a).
Proof.
  destruct s as [k air]. cbn [start]; unfold authentication_initiate; repeat crawl2.
Qed.

Lemma associated_ s : fits (Association false a) s (start Authenticated a).
Proof.
  destruct s as [k air]. cbn [start]; unfold authentication_respond; repeat crawl2.
Qed.

(** ** The public key *)

Lemma await_same M s o k : pausing M s = true ->
  (forall q, next M s (Heard (Accepted q)) = Some s) -> (forall q x, next M s (Heard (NotAccepted q x)) = Some s) ->
  (forall b, fits M s (k b)) -> fits M s (Await o k).
Proof.
  intros Z A B F. cbn [LmpProofs.fits]. repeat split; intros; auto; apply after_same; auto; apply F.
Qed.

Lemma chunks_fit n : forall rest k, List.length rest = (16 * S n)%nat -> fits Exchange Idle k ->
  fits Exchange (Sending rest) (send_chunks (chunks (S n) rest) k).
Proof.
  induction n as [|n IH]; intros rest k L F.
  - cbn [chunks send_chunks]. apply (air_step Exchange _ Idle); [|apply await_same; [reflexivity|reflexivity|reflexivity|intros _; exact F]].
    cbn [next Exchange]. unfold lenN. rewrite firstn_length, L. cbn [Nat.mul Nat.add Nat.min N.of_nat].
    rewrite (proj2 (list_eqb_eq _ _) eq_refl). reflexivity.
  - change (chunks (S (S n)) rest) with (firstn 16 rest :: chunks (S n) (skipn 16 rest)). cbn [send_chunks].
    apply (air_step Exchange _ (Sending (skipn 16 rest)));
      [|apply await_same; [reflexivity|reflexivity|reflexivity|intros _; apply IH; [rewrite skipn_length, L; lia|exact F]]].
    cbn [next Exchange]. unfold lenN. rewrite firstn_length, L.
    replace (Nat.min 16 (16 * S (S n))) with 16%nat by lia.
    rewrite (proj2 (list_eqb_eq _ _) eq_refl).
    rewrite (proj2 (N.leb_le 16 _)) by lia. rewrite (proj2 (N.eqb_neq (N.of_nat (16 * S (S n))) 16)) by lia. reflexivity.
Qed.

Lemma send_key_fits c key k : List.length key = (2 * key_size c)%nat -> fits Exchange Idle k ->
  fits Exchange (Announcing key) (send_public_key key k).
Proof.
  intros L F. unfold send_public_key. eapply air_step; [cbn [next Exchange]; rewrite N.eqb_refl; reflexivity|].
  apply await_same; [reflexivity|reflexivity|reflexivity|]. intros _. rewrite L.
  destruct c; apply chunks_fit; auto; rewrite L; reflexivity.
Qed.

Lemma new_key_fits c k : (forall private public, fits Exchange Idle (k private public)) ->
  fits Exchange Idle (new_key c (fun private public => send_public_key public (k private public))).
Proof.
  intros F. apply draw_step. intros r. cbn [next Exchange].
  destruct (generate c r) as [private|]; [|exists Idle; split; [reflexivity|exact Logic.I]].
  destruct (derive c private) as [public|] eqn:D; [|exists Idle; split; [reflexivity|exact Logic.I]].
  exists (Announcing public). split; [reflexivity|]. apply (send_key_fits c); auto. exact (to_bytes_length _ _ _ D).
Qed.

Ltac crawl3 :=
  lazymatch goal with
  | |- fits _ _ (new_key _ _) => apply new_key_fits; intros ? ?
  | _ => crawl1
  end.

Lemma exchanging w s : w <> Manager -> resting Exchange s = true -> fits Exchange s (start w a).
Proof.
  intros W R. destruct s; try discriminate. clear R. destruct w; [congruence| | | | |]; cbn [start].
  - unfold authentication_initiate. repeat crawl3.
  - unfold authentication_respond. repeat crawl3.
  - unfold encryption_initiate. repeat crawl3.
  - unfold encryption_respond. repeat crawl3.
  - unfold features_respond. repeat crawl3. cbn [LmpProofs.fits]. intros f. unfold after. cbn. reflexivity.
Qed.

(** ** Encryption *)

Lemma features_step M s page k :
  (forall f, exists t, next M s (Looked page f) = Some t /\ fits M t (k f)) -> fits M s (Features page k).
Proof. intros F f. destruct (F f) as (t & E & G). unfold after. rewrite E. exact G. Qed.

Lemma change_fits i : fits (Encryption i) (Working unknown) encryption_change.
Proof.
  assert (FIN : forall s aes, (if aes : bool then forallb is_true (bits s) else existsb is_false (bits s)) = true ->
    fits (Encryption i) (Working s) (Handle (fun h => Tell (EncryptionChange SUCCESS h aes) Done))).
  { intros s aes E. apply handle_step. intros h. eexists. split; [reflexivity|].
    apply (tell_step (Encryption i) (Changing s h) Plain); [|reflexivity].
    cbn [next Encryption]. rewrite !N.eqb_refl. cbn [andb]. rewrite E. reflexivity. }
  unfold encryption_change, supported_on_both, features_initiate. cbn zeta.
  apply features_step. intros f. eexists. split; [reflexivity|].
  destruct (N.land f SC_HOST =? 0) eqn:B1.
  { apply FIN. cbn. rewrite B1. reflexivity. }
  apply features_step. intros f2. eexists. split; [reflexivity|]. eapply air_step; [reflexivity|].
  apply receive_step; [reflexivity|]. intros [] X; try discriminate X. clear X. eexists. split; [reflexivity|].
  match goal with |- context [N.land ?v SC_HOST =? 0] => destruct (N.land v SC_HOST =? 0) eqn:B2 end; cbn [negb].
  { apply FIN. cbn. rewrite B1, B2. reflexivity. }
  apply features_step. intros f4. eexists. split; [reflexivity|].
  destruct (N.land f4 SC_CONTROLLER =? 0) eqn:B3.
  { apply FIN. cbn. rewrite B1, B2, B3. reflexivity. }
  apply features_step. intros f5. eexists. split; [reflexivity|]. eapply air_step; [reflexivity|].
  apply receive_step; [reflexivity|]. intros [] X; try discriminate X. clear X. eexists. split; [reflexivity|].
  match goal with |- context [N.land ?v SC_CONTROLLER =? 0] => destruct (N.land v SC_CONTROLLER =? 0) eqn:B4 end; cbn [negb]; apply FIN; cbn; rewrite B1, B2, B3, B4; reflexivity.
Qed.

Ltac wait := apply await_same; [reflexivity|reflexivity|reflexivity|intros _].

Lemma encrypting s : resting (Encryption true) s = true -> fits (Encryption true) s (start Encrypting a).
Proof.
  destruct s; try discriminate. intros _. cbn [start]. unfold encryption_initiate.
  crawl1. crawl1.
  eapply air_step; [reflexivity|]. wait. eapply air_step; [reflexivity|]. wait. eapply air_step; [reflexivity|]. wait.
  apply change_fits.
Qed.

Lemma encrypted s : resting (Encryption false) s = true -> fits (Encryption false) s (start Encrypted a).
Proof.
  destruct s; try discriminate. intros _. cbn [start]. unfold encryption_respond.
  do 6 crawl1. apply change_fits.
Qed.

(** ** Features *)

Lemma describing s : resting Describing s = true -> fits Describing s (start Featured a).
Proof.
  destruct s; try discriminate. intros _. cbn [start]. unfold features_respond. crawl1.
  apply features_step. intros f. eexists. split; [compute_next|]. refine (air_step Describing _ None _ _ _ _); [|reflexivity].
  cbn. rewrite !N.eqb_refl. reflexivity.
Qed.

(** ** Messages that no procedure takes *)

Lemma ignoring w s : w <> Manager -> fits Ignoring s (start w a).
Proof.
  intros W. destruct s, w; [congruence| | | | |]; cbn [start].
  - unfold authentication_initiate. crawl.
  - unfold authentication_respond. crawl.
  - unfold encryption_initiate. crawl.
  - unfold encryption_respond. crawl.
  - unfold features_respond. crawl. apply features_step. intros f. eexists. split; [reflexivity|].
    eapply air_step; reflexivity.
Qed.

End To.
