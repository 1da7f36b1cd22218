(** Properties C80 to C86: the Link Manager. *)
From Verif Require Import Prelude Ec EcWitness Lmp LmpSpec LmpProofs LmpManager LmpLive LmpSafe LmpSessions LmpWitness.
Open Scope N_scope.

Theorem C80_answered_in_order_partial : forall rng n h m l a,
  run rng (new_manager n) h = Ok (m, l) -> orderly [] h -> (forall e, ~ In (e, Reset) h) -> a <> EMPTY ->
  exists rest, given a h = answered a l ++ rest /\ (List.length rest <= 1)%nat.
Proof. exact answered_in_order. Qed.
Print Assumptions C80_answered_in_order_partial.

Theorem C80_answered_with_success : forall rng n pre e a h l w,
  in_session rng n pre e a h l -> w <> Manager -> obeys (Answering a) None (part a w l).
Proof. exact sessions_answer. Qed.
Print Assumptions C80_answered_with_success.

Theorem C80_no_link_refused : forall rng n h m l e c a,
  run rng (new_manager n) h = Ok (m, l) -> orderly [] (h ++ [(e, IngestHci c)]) ->
  target e c = Some a -> ~ In a (linked h []) ->
  run rng m [(e, IngestHci c)] = Ok (m, [Entry a Manager (Said
    match c with
    | AuthenticationRequested _ | SetConnectionEncryption _ _ => Status (kind_of c) INVALID_PARAMETERS
    | _ => Complete (kind_of c) INVALID_PARAMETERS a
    end)]).
Proof. exact no_link_refused. Qed.
Print Assumptions C80_no_link_refused.

Theorem C80_no_link_witness : forall rng, exists m l, run rng (new_manager 0) [] = Ok (m, l) /\
  forall e, orderly [] ([] ++ [(e, IngestHci (LinkKeyNegative 5))]) /\
    target e (LinkKeyNegative 5) = Some 5 /\ ~ In 5 (linked [] []).
Proof. exact no_link_case. Qed.
Print Assumptions C80_no_link_witness.

Theorem C80_pin_refusal_unanswered : forall rng n pre e a h1 e1 h2 l,
  in_session rng n pre e a (h1 ++ (e1, IngestHci (PinNegative a)) :: h2) l ->
  ~ In kPinNegative (answered a l) /\ given a h2 = [].
Proof. exact never_answered. Qed.
Print Assumptions C80_pin_refusal_unanswered.

Theorem C80_pin_refusal_refuted : forall ticks, exists l,
  in_session two 0 [] (sees 0 0 Bob) Bob (no_pin ticks) l /\
  In (PinCodeRequest Bob) (told l) /\ given Bob (no_pin ticks) = answered Bob l ++ [kPinNegative].
Proof. exact no_pin_refuted. Qed.
Print Assumptions C80_pin_refusal_refuted.

Theorem C80_zero_address_refuted : let e := sees 0 0 Bob in
  match run two (new_manager 0) [(e, AddLink Bob); (e, IngestHci (PinReply EMPTY)); (e, Tick); (e, Tick)] with
  | Ok (_, l) => l = []
  | _ => False
  end /\
  run two (new_manager 0) [(e, IngestHci (PinReply EMPTY)); (e, Tick); (e, IngestHci (PinReply EMPTY))] = Abort.
Proof. exact zero_address_refuted. Qed.
Print Assumptions C80_zero_address_refuted.

Theorem C81_never_hangs : forall rng n h, run rng (new_manager n) h <> Hang.
Proof. exact never_hangs. Qed.
Print Assumptions C81_never_hangs.

Theorem C81_no_crash_partial : forall rng n h, peaceful rng n h -> exists m l, run rng (new_manager n) h = Ok (m, l).
Proof. exact peace_kept. Qed.
Print Assumptions C81_no_crash_partial.

Theorem C81_no_crash_witness : peaceful two 0 pleasant /\
  match run two (new_manager 0) pleasant with Ok (_, l) => skipn 2 (told l) | _ => [] end =
    [Complete kIoReply 0 Bob; UserConfirmationRequest Bob 27; Complete kConfirmationReply 0 Bob; SimplePairingComplete 0 Bob].
Proof. exact pleasant_case. Qed.
Print Assumptions C81_no_crash_witness.

Theorem C81_host_crashes_refuted : let e := sees 1 0 Bob in
  let hci := fun c => (e, IngestHci c) in
  let lmp := fun p => (e, IngestLmp Bob p) in
  let tick := (e, Tick) in
  let link := (e, AddLink Bob) in
  crash two [hci (OobExtendedReply Bob)] /\
  crash two [link; hci (AuthenticationRequested 7); hci (LinkKeyNegative Bob)] /\
  crash two (map (fun a => (e, AddLink a)) [1; 2; 3; 4; 5; 6; 7; 8]).
Proof. exact host_crashes. Qed.
Print Assumptions C81_host_crashes_refuted.

Theorem C81_peer_crashes_refuted : let e := sees 1 0 Bob in
  let hci := fun c => (e, IngestHci c) in
  let lmp := fun p => (e, IngestLmp Bob p) in
  let tick := (e, Tick) in
  let link := (e, AddLink Bob) in
  crash two [link; lmp (IoCapabilityReq 4 0 0); tick] /\
  crash two (responding ++ [lmp (EncapsulatedHeader 32); tick]) /\
  crash two (responding ++ flat_map (fun p => [lmp p; tick])
    [EncapsulatedHeader 48; EncapsulatedPayload (repeat 0 16); EncapsulatedPayload (repeat 0 16); EncapsulatedPayload (repeat 0 16);
     Accepted ENCAPSULATED_HEADER; Accepted ENCAPSULATED_PAYLOAD; Accepted ENCAPSULATED_PAYLOAD; Accepted ENCAPSULATED_PAYLOAD]) /\
  crash two (map (fun x => match x with (e, IngestLmp a (IoCapabilityReq _ _ _)) => (e, IngestLmp a (IoCapabilityReq 1 1 0)) | x => x end) confirming
    ++ [lmp (SimplePairingConfirm (repeat 1 16)); tick; lmp (SimplePairingNumber (repeat 0 16)); tick]) /\
  run two (new_manager 0) [link; lmp (FeaturesReqExt 3 0); tick] = Unbounded.
Proof. exact peer_crashes. Qed.
Print Assumptions C81_peer_crashes_refuted.

Theorem C81_key_crash_refuted : let e := sees 1 0 Bob in
  let hci := fun c => (e, IngestHci c) in
  let lmp := fun p => (e, IngestLmp Bob p) in
  let tick := (e, Tick) in
  let link := (e, AddLink Bob) in
  crash (fun _ => repeat 0 23 ++ 128 :: repeat 0 8) (responding ++ flat_map (fun p => [lmp p; tick]) key_packets).
Proof. exact key_crash. Qed.
Print Assumptions C81_key_crash_refuted.

Theorem C82_authentication : forall rng n pre e a h l, in_session rng n pre e a h l -> obeys Authentication Quiet (part a Authenticating l).
Proof. exact sessions_authenticate. Qed.
Print Assumptions C82_authentication.

Theorem C82_keyed_witness : let e := sees 1 0 Bob in
  in_session two 0 [] e Bob (keyed true) (log_of e Bob (keyed true)) /\
  in_session two 0 [] e Bob (keyed false) (log_of e Bob (keyed false)) /\
  told (log_of e Bob (keyed true)) =
    [Status kAuthenticationRequested 0; LinkKeyRequest Bob; Complete kLinkKeyReply 0 Bob; AuthenticationComplete SUCCESS 7] /\
  told (log_of e Bob (keyed false)) =
    [Status kAuthenticationRequested 0; LinkKeyRequest Bob; Complete kLinkKeyReply 0 Bob; AuthenticationComplete PIN_OR_KEY_MISSING 7].
Proof. exact keyed_case. Qed.
Print Assumptions C82_keyed_witness.

Theorem C82_legacy_witness : let ea := sees 0 0 Bob in let eb := sees 0 0 Alice in
  in_session two 0 [] ea Bob (fst legacy) (log_of ea Bob (fst legacy)) /\
  in_session two 0 [] eb Alice (snd legacy) (log_of eb Alice (snd legacy)) /\
  skipn 3 (told (log_of ea Bob (fst legacy))) =
    [PinCodeRequest Bob; Complete kPinReply 0 Bob; LinkKeyNotification Bob Combination (repeat 1 16);
     AuthenticationComplete 0 7; Status kSetConnectionEncryption 0; EncryptionChange 0 7 false] /\
  told (log_of eb Alice (snd legacy)) =
    [PinCodeRequest Alice; Complete kPinReply 0 Alice; LinkKeyNotification Alice Combination (repeat 1 16);
     EncryptionChange 0 7 false].
Proof. exact legacy_case. Qed.
Print Assumptions C82_legacy_witness.

Theorem C83_initiator_pairing : forall rng n pre e a h l, in_session rng n pre e a h l -> obeys (Pairing refuses true a) Apart (part a Authenticating l).
Proof. exact sessions_pair. Qed.
Print Assumptions C83_initiator_pairing.

Theorem C83_responder_pairing_partial : forall rng n pre e a h l, in_session rng n pre e a h l -> obeys (Pairing refuses_heeded false a) Apart (part a Authenticated l).
Proof. exact sessions_paired. Qed.
Print Assumptions C83_responder_pairing_partial.

Theorem C83_refusal_witness : let ea := sees 9 0x100 Bob in let eb := sees 9 0x100 Alice in
  in_session two 0 [] ea Bob (fst refused) (log_of ea Bob (fst refused)) /\
  in_session two 0 [] eb Alice (snd refused) (log_of eb Alice (snd refused)) /\
  skipn 6 (told (log_of ea Bob (fst refused))) =
    [UserConfirmationRequest Bob 27; Complete kConfirmationNegative 0 Bob; SimplePairingComplete AUTHENTICATION_FAILURE Bob;
     AuthenticationComplete AUTHENTICATION_FAILURE 7] /\
  skipn 3 (told (log_of eb Alice (snd refused))) =
    [UserConfirmationRequest Alice 27; Complete kConfirmationReply 0 Alice; SimplePairingComplete AUTHENTICATION_FAILURE Alice].
Proof. exact refused_case. Qed.
Print Assumptions C83_refusal_witness.

Theorem C83_missing_data_refuted : let eb := sees 1 0 Alice in
  in_session two 0 [] eb Alice (snd carried) (log_of eb Alice (snd carried)) /\
  skipn 3 (told (log_of eb Alice (snd carried))) =
    [RemoteOobDataRequest Alice; Complete kOobNegative 0 Alice; SimplePairingComplete 0 Alice;
     LinkKeyNotification Alice AuthenticatedP192 (repeat 1 16); EncryptionChange 0 7 false].
Proof. exact carried_case. Qed.
Print Assumptions C83_missing_data_refuted.

Theorem C84_initiator_association : forall rng n pre e a h l, in_session rng n pre e a h l -> obeys (Association true a) (ignorant, None) (part a Authenticating l).
Proof. exact sessions_associate. Qed.
Print Assumptions C84_initiator_association.

Theorem C84_responder_association : forall rng n pre e a h l, in_session rng n pre e a h l -> obeys (Association false a) (ignorant, None) (part a Authenticated l).
Proof. exact sessions_associated. Qed.
Print Assumptions C84_responder_association.

Theorem C84_key_exchange : forall rng n pre e a h l w,
  in_session rng n pre e a h l -> w <> Manager -> obeys Exchange Idle (part a w l).
Proof. exact sessions_exchange. Qed.
Print Assumptions C84_key_exchange.

Theorem C84_comparison_witness : let ea := sees 9 0x100 Bob in let eb := sees 9 0x100 Alice in
  in_session two 0 [] ea Bob (fst secure) (log_of ea Bob (fst secure)) /\
  in_session two 0 [] eb Alice (snd secure) (log_of eb Alice (snd secure)) /\
  told (log_of ea Bob (fst secure)) =
    [Status kAuthenticationRequested 0; LinkKeyRequest Bob; Complete kLinkKeyNegative 0 Bob;
     IoCapabilityRequest Bob; Complete kIoReply 0 Bob; IoCapabilityResponse Bob (offers careful_user);
     UserConfirmationRequest Bob 27; Complete kConfirmationReply 0 Bob; SimplePairingComplete 0 Bob;
     LinkKeyNotification Bob AuthenticatedP256 (repeat 1 16); AuthenticationComplete 0 7;
     Status kSetConnectionEncryption 0; EncryptionChange 0 7 true] /\
  told (log_of eb Alice (snd secure)) =
    [IoCapabilityResponse Alice (offers careful_user); IoCapabilityRequest Alice; Complete kIoReply 0 Alice;
     UserConfirmationRequest Alice 27; Complete kConfirmationReply 0 Alice; SimplePairingComplete 0 Alice;
     LinkKeyNotification Alice AuthenticatedP256 (repeat 1 16); EncryptionChange 0 7 true].
Proof. exact secure_case. Qed.
Print Assumptions C84_comparison_witness.

Theorem C84_passkey_witness : let ea := sees 1 0 Bob in let eb := sees 1 0 Alice in
  in_session two 0 [] ea Bob (fst typed) (log_of ea Bob (fst typed)) /\
  in_session two 0 [] eb Alice (snd typed) (log_of eb Alice (snd typed)) /\
  skipn 6 (told (log_of ea Bob (fst typed))) =
    [UserPasskeyRequest Bob; Complete kPasskeyReply 0 Bob; SimplePairingComplete 0 Bob;
     LinkKeyNotification Bob AuthenticatedP192 (repeat 1 16); AuthenticationComplete 0 7;
     Status kSetConnectionEncryption 0; EncryptionChange 0 7 false] /\
  skipn 3 (told (log_of eb Alice (snd typed))) =
    [UserPasskeyNotification Alice 0; SimplePairingComplete 0 Alice;
     LinkKeyNotification Alice AuthenticatedP192 (repeat 1 16); EncryptionChange 0 7 false].
Proof. exact typed_case. Qed.
Print Assumptions C84_passkey_witness.

Theorem C85_initiator_encryption : forall rng n pre e a h l, in_session rng n pre e a h l -> obeys (Encryption true) Plain (part a Encrypting l).
Proof. exact sessions_encrypt. Qed.
Print Assumptions C85_initiator_encryption.

Theorem C85_responder_encryption : forall rng n pre e a h l, in_session rng n pre e a h l -> obeys (Encryption false) Plain (part a Encrypted l).
Proof. exact sessions_encrypted. Qed.
Print Assumptions C85_responder_encryption.

Theorem C85_features_answered : forall rng n pre e a h l, in_session rng n pre e a h l -> obeys Describing None (part a Featured l).
Proof. exact sessions_describe. Qed.
Print Assumptions C85_features_answered.

Theorem C85_unwilling_peer_refuted : forall turn_on,
  let e := sees 1 0 Bob in
  in_session two 0 [] e Bob (unwilling turn_on) (log_of e Bob (unwilling turn_on)) /\
  told (log_of e Bob (unwilling turn_on)) = [Status kSetConnectionEncryption 0; EncryptionChange 0 7 false] /\
  In (Sent (EncryptionModeReq 1)) (part Bob Encrypting (log_of e Bob (unwilling turn_on))).
Proof. exact unwilling_case. Qed.
Print Assumptions C85_unwilling_peer_refuted.

Theorem C86_packets_in_order : forall rng n pre e a h l, in_session rng n pre e a h l -> exists rest, received a h = heard a l ++ rest.
Proof. exact sessions_hear. Qed.
Print Assumptions C86_packets_in_order.

Theorem C86_link_deaf : forall rng n pre e a h1 e1 p h2 l,
  hopeless p = true -> in_session rng n pre e a (h1 ++ (e1, IngestLmp a p) :: h2) l ->
  exists rest, received a h1 = heard a l ++ rest.
Proof. exact deafened. Qed.
Print Assumptions C86_link_deaf.

Theorem C86_declined_pairing_refuted : let e := sees 1 0 Bob in
  let hci := fun c => (e, IngestHci c) in
  let lmp := fun p => (e, IngestLmp Bob p) in
  let tick := (e, Tick) in
  let link := (e, AddLink Bob) in
  in_session two 0 [] e Bob (declined ++ lmp (NotAcceptedExt X_IO_CAPABILITY_REQ 5) :: after_declined)
    (log_of e Bob (declined ++ lmp (NotAcceptedExt X_IO_CAPABILITY_REQ 5) :: after_declined)) /\
  told (log_of e Bob (declined ++ lmp (NotAcceptedExt X_IO_CAPABILITY_REQ 5) :: after_declined)) =
    [Status kAuthenticationRequested 0; LinkKeyRequest Bob; Complete kLinkKeyNegative 0 Bob; IoCapabilityRequest Bob; Complete kIoReply 0 Bob].
Proof. exact declined_case. Qed.
Print Assumptions C86_declined_pairing_refuted.

Theorem C86_declined_packet_sent_witness : let e := sees 1 0 Bob in
  let hci := fun c => (e, IngestHci c) in
  let lmp := fun p => (e, IngestLmp Bob p) in
  let tick := (e, Tick) in
  let link := (e, AddLink Bob) in
  let h := [lmp (IoCapabilityReq 1 0 0); tick; hci (IoNegative Bob 5); tick] in
  in_session two 0 [] e Bob h (log_of e Bob h) /\
  In (Sent (NotAcceptedExt X_IO_CAPABILITY_REQ 5)) (part Bob Authenticated (log_of e Bob h)).
Proof. exact declines_case. Qed.
Print Assumptions C86_declined_packet_sent_witness.
