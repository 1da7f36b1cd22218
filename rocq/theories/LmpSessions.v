(** What each procedure does in every session. *)
From Verif Require Import Prelude Ec Lmp LmpSpec EcProofs LmpProofs LmpFits LmpManager LmpLive.
Open Scope N_scope.

Lemma session_obeys rng n pre e a h l M w s : in_session rng n pre e a h l -> w <> Manager ->
  (forall s, resting M s = true -> fits a M s (start w a)) -> resting M s = true -> obeys M s (part a w l).
Proof. intros S. destruct (session_parts rng _ _ _ _ _ _ S) as (_ & _ & _ & _ & O). apply O. Qed.

Section Sessions.
Variable rng : nat -> list N.
Variables (n : nat) (pre : list (env * op)) (e : env) (a : address) (h : list (env * op)) (l : list entry).

Ltac session S L := apply (session_obeys rng n pre e a h l _ _ _ S); [discriminate| |reflexivity]; intros s; first [apply L | intros _; apply L].

Lemma sessions_answer w : in_session rng n pre e a h l -> w <> Manager -> obeys (Answering a) None (part a w l).
Proof. intros S W. apply (session_obeys rng n pre e a h l _ _ _ S W); [|reflexivity]. apply answering. exact W. Qed.

Lemma sessions_authenticate : in_session rng n pre e a h l -> obeys Authentication Quiet (part a Authenticating l).
Proof. intros S. session S authenticating. Qed.

Lemma sessions_pair : in_session rng n pre e a h l -> obeys (Pairing refuses true a) Apart (part a Authenticating l).
Proof. intros S. session S pairing_as_initiator. Qed.

Lemma sessions_paired : in_session rng n pre e a h l -> obeys (Pairing refuses_heeded false a) Apart (part a Authenticated l).
Proof. intros S. session S pairing_as_responder. Qed.

Lemma sessions_associate : in_session rng n pre e a h l -> obeys (Association true a) (ignorant, None) (part a Authenticating l).
Proof. intros S. session S associating. Qed.

Lemma sessions_associated : in_session rng n pre e a h l -> obeys (Association false a) (ignorant, None) (part a Authenticated l).
Proof. intros S. session S associated_. Qed.

Lemma sessions_exchange w : in_session rng n pre e a h l -> w <> Manager -> obeys Exchange Idle (part a w l).
Proof. intros S W. apply (session_obeys rng n pre e a h l _ _ _ S W); [|reflexivity]. intros s R. apply exchanging; assumption. Qed.

Lemma sessions_encrypt : in_session rng n pre e a h l -> obeys (Encryption true) Plain (part a Encrypting l).
Proof. intros S. session S encrypting. Qed.

Lemma sessions_encrypted : in_session rng n pre e a h l -> obeys (Encryption false) Plain (part a Encrypted l).
Proof. intros S. session S encrypted. Qed.

Lemma sessions_describe : in_session rng n pre e a h l -> obeys Describing None (part a Featured l).
Proof. intros S. session S describing. Qed.

Lemma sessions_hear : in_session rng n pre e a h l -> exists rest, received a h = heard a l ++ rest.
Proof. intros S. destruct (session_parts rng _ _ _ _ _ _ S) as (_ & _ & H & _). exact H. Qed.

End Sessions.

(** A command for a device without a link is refused at once. *)
Lemma no_link_refused rng n h m l e c a :
  run rng (new_manager n) h = Ok (m, l) -> orderly [] (h ++ [(e, IngestHci c)]) ->
  target e c = Some a -> ~ In a (linked h []) ->
  run rng m [(e, IngestHci c)] = Ok (m, [Entry a Manager (Said
    match c with
    | AuthenticationRequested _ | SetConnectionEncryption _ _ => Status (kind_of c) INVALID_PARAMETERS
    | _ => Complete (kind_of c) INVALID_PARAMETERS a
    end)]).
Proof.
  intros R O T NI. apply orderly_app in O as (O1 & (O2 & _)).
  destruct (run_sound rng h [] _ _ _ (new_sound rng n) O1 R) as ((_ & _ & K) & _).
  cbn [run step]. rewrite T.
  assert (F : find_peer a (slots m) = None).
  { apply find_peer_in. intros I. apply NI. apply K; [|exact I]. intros ->. apply O2. exact T. }
  rewrite F. destruct c; try discriminate T; cbn in T |- *; try (injection T as <-); reflexivity.
Qed.

Lemma no_link_case rng : exists m l, run rng (new_manager 0) [] = Ok (m, l) /\
  forall e, orderly [] ([] ++ [(e, IngestHci (LinkKeyNegative 5))]) /\ target e (LinkKeyNegative 5) = Some 5 /\ ~ In 5 (linked [] []).
Proof. do 2 eexists. split; [reflexivity|]. intros e. split; [|split; [reflexivity|intros []]]. cbn. split; [discriminate|exact Logic.I]. Qed.
