(** Model of the Link Manager, rust/src/lmp: the procedures of authentication, pairing,
    encryption and features, and the manager that runs them.

    A procedure is an async function of Rust. It is modelled by the tree [proc] of the things it
    does: what it sends, what it asks its context for, and the messages it waits for. [poll]
    runs such a tree until it has to wait, as Future::poll does.

    Simplifications:
    - the packets of HCI and LMP are abstract data, not bytes; fields that no procedure reads and
      that do not vary (transaction_id, major_type, minor_type, max_supported_page,
      num_hci_command_packets) are left out;
    - what the C++ side answers to the callbacks of rust/src/ffi.rs (the connection handle of an
      address, the address of a handle, the local features) is given with each call;
    - the random bytes drawn for private keys are an oracle. *)
From Verif Require Import Prelude Ec.
Open Scope N_scope.

Definition address := N.
Definition status := N.

(** packets/hci_packets.pdl:919-990 (ErrorCode), the values used here *)
Definition SUCCESS : status := 0x00.
Definition UNKNOWN_CONNECTION : status := 0x02.
Definition AUTHENTICATION_FAILURE : status := 0x05.
Definition PIN_OR_KEY_MISSING : status := 0x06.
Definition INVALID_PARAMETERS : status := 0x12.

(** rust/src/packets.rs:23 (EMPTY_ADDRESS) *)
Definition EMPTY : address := 0.

(** * Packets *)

(** packets/hci_packets.pdl:1373-1378 *)
Inductive capability := DisplayOnly | DisplayYesNo | KeyboardOnly | NoInputNoOutput.

(** packets/hci_packets.pdl:1380-1385 *)
Inductive oob_data := NotPresent | P192Present | P256Present | BothPresent.

(** packets/hci_packets.pdl:1387-1394 *)
Inductive requirements :=
| NoBonding | NoBondingMitm | DedicatedBonding | DedicatedBondingMitm | GeneralBonding | GeneralBondingMitm.

(** rust/src/lmp/procedure/secure_simple_pairing.rs:44-49 (AuthenticationParams) *)
Record params := Params { io : capability; oob : oob_data; auth : requirements }.

(** The conversions between the enumerations of HCI and the bytes of LMP:
    IoCapability::try_from and into. *)
Definition capability_byte (x : capability) : N :=
  match x with DisplayOnly => 0 | DisplayYesNo => 1 | KeyboardOnly => 2 | NoInputNoOutput => 3 end.
Definition byte_capability (b : N) : option capability :=
  match b with 0 => Some DisplayOnly | 1 => Some DisplayYesNo | 2 => Some KeyboardOnly | 3 => Some NoInputNoOutput | _ => None end.

(** OobDataPresent::try_from and into *)
Definition oob_byte (x : oob_data) : N :=
  match x with NotPresent => 0 | P192Present => 1 | P256Present => 2 | BothPresent => 3 end.
Definition byte_oob (b : N) : option oob_data :=
  match b with 0 => Some NotPresent | 1 => Some P192Present | 2 => Some P256Present | 3 => Some BothPresent | _ => None end.

(** AuthenticationRequirements::try_from and into *)
Definition requirements_byte (x : requirements) : N :=
  match x with
  | NoBonding => 0 | NoBondingMitm => 1 | DedicatedBonding => 2 | DedicatedBondingMitm => 3
  | GeneralBonding => 4 | GeneralBondingMitm => 5
  end.
Definition byte_requirements (b : N) : option requirements :=
  match b with
  | 0 => Some NoBonding | 1 => Some NoBondingMitm | 2 => Some DedicatedBonding | 3 => Some DedicatedBondingMitm
  | 4 => Some GeneralBonding | 5 => Some GeneralBondingMitm | _ => None
  end.

(** The commands forwarded to the Link Manager, dual_mode_controller.cc:4036-4081 and 4190. *)
Inductive command :=
| AuthenticationRequested (handle : N)
| SetConnectionEncryption (handle : N) (enable : bool)
| LinkKeyReply (a : address) (key : list N)
| LinkKeyNegative (a : address)
| PinReply (a : address)
| PinNegative (a : address)
| IoReply (a : address) (p : params)
| IoNegative (a : address) (reason : status)
| ConfirmationReply (a : address)
| ConfirmationNegative (a : address)
| PasskeyReply (a : address) (passkey : N)
| PasskeyNegative (a : address)
| OobReply (a : address)
| OobNegative (a : address)
| Keypress (a : address)
| OobExtendedReply (a : address).

(** The operation code of a command, without its parameters. *)
Inductive kind :=
| kAuthenticationRequested | kSetConnectionEncryption | kLinkKeyReply | kLinkKeyNegative | kPinReply
| kPinNegative | kIoReply | kIoNegative | kConfirmationReply | kConfirmationNegative | kPasskeyReply
| kPasskeyNegative | kOobReply | kOobNegative | kKeypress | kOobExtendedReply.

Definition kind_of (c : command) : kind :=
  match c with
  | AuthenticationRequested _ => kAuthenticationRequested
  | SetConnectionEncryption _ _ => kSetConnectionEncryption
  | LinkKeyReply _ _ => kLinkKeyReply
  | LinkKeyNegative _ => kLinkKeyNegative
  | PinReply _ => kPinReply
  | PinNegative _ => kPinNegative
  | IoReply _ _ => kIoReply
  | IoNegative _ _ => kIoNegative
  | ConfirmationReply _ => kConfirmationReply
  | ConfirmationNegative _ => kConfirmationNegative
  | PasskeyReply _ _ => kPasskeyReply
  | PasskeyNegative _ => kPasskeyNegative
  | OobReply _ => kOobReply
  | OobNegative _ => kOobNegative
  | Keypress _ => kKeypress
  | OobExtendedReply _ => kOobExtendedReply
  end.

(** packets/hci_packets.pdl:5571-5579 (KeyType) *)
Inductive key_type := Combination | UnauthenticatedP192 | AuthenticatedP192 | UnauthenticatedP256 | AuthenticatedP256.

(** The events sent to the host. [Complete] is the Command Complete event of a command with its
    status and address, [Status] a Command Status event. *)
Inductive event :=
| Complete (k : kind) (s : status) (a : address)
| Status (k : kind) (s : status)
| LinkKeyRequest (a : address)
| PinCodeRequest (a : address)
| IoCapabilityRequest (a : address)
| IoCapabilityResponse (a : address) (p : params)
| UserConfirmationRequest (a : address) (value : N)
| UserPasskeyRequest (a : address)
| UserPasskeyNotification (a : address) (passkey : N)
| RemoteOobDataRequest (a : address)
| SimplePairingComplete (s : status) (a : address)
| LinkKeyNotification (a : address) (t : key_type) (key : list N)
| AuthenticationComplete (s : status) (handle : N)
| EncryptionChange (s : status) (handle : N) (aes_ccm : bool).

(** rust/lmp_packets.pdl:98-211. [Other] stands for the packets no procedure looks at. *)
Inductive packet :=
| Accepted (opcode : N)
| NotAccepted (opcode : N) (error : N)
| NotAcceptedExt (opcode : N) (error : N)
| IoCapabilityReq (io oob auth : N)
| IoCapabilityRes (io oob auth : N)
| EncapsulatedHeader (len : N)
| EncapsulatedPayload (data : list N)
| SimplePairingConfirm (value : list N)
| SimplePairingNumber (nonce : list N)
| DhkeyCheck (value : list N)
| AuRand (number : list N)
| Sres (response : list N)
| NumericComparisonFailed
| PasskeyFailed
| InRand (number : list N)
| CombKey (number : list N)
| EncryptionModeReq (mode : N)
| EncryptionKeySizeReq (size : N)
| StartEncryptionReq (number : list N)
| FeaturesReqExt (page : N) (features : N)
| FeaturesResExt (page : N) (features : N)
| Other.

(** rust/lmp_packets.pdl:3-64 (Opcode) and 66-96 (ExtendedOpcode) *)
Definition IN_RAND := 8.
Definition AU_RAND := 11.
Definition ENCRYPTION_MODE_REQ := 15.
Definition ENCRYPTION_KEY_SIZE_REQ := 16.
Definition START_ENCRYPTION_REQ := 17.
Definition ENCAPSULATED_HEADER := 61.
Definition ENCAPSULATED_PAYLOAD := 62.
Definition SIMPLE_PAIRING_CONFIRM := 63.
Definition SIMPLE_PAIRING_NUMBER := 64.
Definition DHKEY_CHECK := 65.
Definition X_IO_CAPABILITY_REQ := 25.

(** * Procedures *)

Inductive proc :=
| Done                                                     (* the async function returns *)
| Panic                                                    (* unwrap of nothing, todo!() *)
| Tell (e : event) (k : proc)                              (* ctx.send_hci_event *)
| Air (p : packet) (k : proc)                              (* ctx.send_lmp_packet *)
| Features (page : N) (k : N -> proc)                      (* ctx.extended_features *)
| Handle (k : N -> proc)                                   (* ctx.peer_handle *)
| Draw (c : curve) (k : list N -> proc)                    (* thread_rng *)
| Hci (wanted : command -> bool) (k : command -> proc)     (* ctx.receive_hci_command *)
| Receive (wanted : packet -> bool) (k : packet -> proc)   (* ctx.receive_lmp_packet *)
| Await (opcode : N) (k : bool -> proc)                    (* SendAcceptedLmpPacketFuture; true is Ok *)
| Keypad (a : address) (k : bool -> proc).                 (* the loop of user_passkey_request *)

Definition zeros (n : nat) : list N := repeat 0 n.

(** ctx.send_accepted_lmp_packet of a packet with this operation code,
    procedure/mod.rs:47-59 *)
Definition SendAccepted (p : packet) (opcode : N) (k : bool -> proc) : proc := Air p (Await opcode k).

(** procedure/authentication.rs:22-37 (send_challenge) *)
Definition send_challenge (k : bool -> proc) : proc :=
  Air (AuRand (zeros 16))
    (Receive (fun p => match p with Sres _ | NotAccepted _ _ => true | _ => false end)
       (fun p => k match p with Sres _ => true | _ => false end)).

(** authentication.rs:39-45 (receive_challenge) *)
Definition receive_challenge (k : proc) : proc :=
  Receive (fun p => match p with AuRand _ => true | _ => false end)
    (fun _ => Air (Sres (zeros 4)) k).

(** procedure/features.rs:20-33 (initiate) *)
Definition features_initiate (page : N) (k : N -> proc) : proc :=
  Features page (fun f =>
  Air (FeaturesReqExt page f)
    (Receive (fun p => match p with FeaturesResExt _ _ => true | _ => false end)
       (fun p => k match p with FeaturesResExt _ f => f | _ => 0 end))).

(** features.rs:35-45 (respond) *)
Definition features_respond : proc :=
  Receive (fun p => match p with FeaturesReqExt _ _ => true | _ => false end)
    (fun p => match p with
              | FeaturesReqExt page _ => Features page (fun f => Air (FeaturesResExt page f) Done)
              | _ => Done
              end).

(** features.rs:47-59 (supported_on_both_page). peer_extended_features is not overridden by the
    context of the manager (procedure/mod.rs:33-35) and always gives None. *)
Definition supported_on_both (page mask : N) (k : bool -> proc) : proc :=
  Features page (fun f =>
    if N.land f mask =? 0 then k false
    else features_initiate page (fun g => k (negb (N.land g mask =? 0)))).

(** packets/hci_packets.pdl:2845, 2848, 2862 *)
Definition SSP_HOST := 0x01.
Definition SC_HOST := 0x08.
Definition SC_CONTROLLER := 0x0100.

(** procedure/legacy_pairing.rs:22-57 (initiate) *)
Definition legacy_initiate (a : address) (k : bool -> proc) : proc :=
  Tell (PinCodeRequest a)
  (Hci (fun c => match c with PinReply _ => true | _ => false end) (fun _ =>
  Tell (Complete kPinReply SUCCESS a)
  (SendAccepted (InRand (zeros 16)) IN_RAND (fun _ =>
  Air (CombKey (zeros 16))
  (Receive (fun p => match p with CombKey _ => true | _ => false end) (fun _ =>
  send_challenge (fun ok =>
  receive_challenge
    (if ok then Tell (LinkKeyNotification a Combination (repeat 1 16)) (k true) else k false)))))))).

(** legacy_pairing.rs:59-91 (respond) *)
Definition legacy_respond (a : address) (k : bool -> proc) : proc :=
  Tell (PinCodeRequest a)
  (Hci (fun c => match c with PinReply _ => true | _ => false end) (fun _ =>
  Tell (Complete kPinReply SUCCESS a)
  (Air (Accepted IN_RAND)
  (Receive (fun p => match p with CombKey _ => true | _ => false end) (fun _ =>
  Air (CombKey (zeros 16))
  (receive_challenge
  (send_challenge (fun ok =>
    if ok then Tell (LinkKeyNotification a Combination (repeat 1 16)) (k true) else k false)))))))).

(** * Secure simple pairing, procedure/secure_simple_pairing.rs *)

(** 26-35 (has_mitm) *)
Definition has_mitm (r : requirements) : bool :=
  match r with
  | NoBonding | DedicatedBonding | GeneralBonding => false
  | NoBondingMitm | DedicatedBondingMitm | GeneralBondingMitm => true
  end.

(** 37-42 *)
Inductive method := OutOfBand | JustWorks | UserConfirm | PasskeyEntry.

Definition is_present (x : oob_data) : bool := match x with NotPresent => false | _ => true end.
Definition is_keyboard (x : capability) : bool := match x with KeyboardOnly => true | _ => false end.
Definition is_none (x : capability) : bool := match x with NoInputNoOutput => true | _ => false end.
Definition is_yes_no (x : capability) : bool := match x with DisplayYesNo => true | _ => false end.

(** 51-75 (authentication_method) *)
Definition authentication_method (i r : params) : method :=
  if is_present (oob i) || is_present (oob r) then OutOfBand
  else if negb (has_mitm (auth i)) && negb (has_mitm (auth r)) then JustWorks
  else if (is_keyboard (io i) && negb (is_none (io r))) || (is_keyboard (io r) && negb (is_none (io i))) then PasskeyEntry
  else if is_yes_no (io i) && is_yes_no (io r) then UserConfirm
  else JustWorks.

(** 77-92 (link_key_type); the variant of the DHKey is that of the local private key *)
Definition link_key_type (m : method) (c : curve) : key_type :=
  match c, m with
  | P256, JustWorks => UnauthenticatedP256
  | P192, JustWorks => UnauthenticatedP192
  | P256, _ => AuthenticatedP256
  | P192, _ => AuthenticatedP192
  end.

(** slice.chunks(16) of a list of [16 * n] bytes *)
Fixpoint chunks (n : nat) (l : list N) : list (list N) :=
  match n with
  | O => []
  | S n => firstn 16 l :: chunks n (skipn 16 l)
  end.

(** 105-113: the loop of send_public_key *)
Fixpoint send_chunks (l : list (list N)) (k : proc) : proc :=
  match l with
  | [] => k
  | d :: l => SendAccepted (EncapsulatedPayload d) ENCAPSULATED_PAYLOAD (fun _ => send_chunks l k)
  end.

(** 94-114 (send_public_key) *)
Definition send_public_key (key : list N) (k : proc) : proc :=
  SendAccepted (EncapsulatedHeader (lenN key)) ENCAPSULATED_HEADER (fun _ =>
    send_chunks (chunks (List.length key / 16) key) k).

(** 128-135: the loop of receive_public_key *)
Fixpoint receive_chunks (n : nat) (got : list N) (k : list N -> proc) : proc :=
  match n with
  | O => k got
  | S n =>
      Receive (fun p => match p with EncapsulatedPayload _ => true | _ => false end) (fun p =>
        let d := match p with EncapsulatedPayload d => d | _ => [] end in
        Air (Accepted ENCAPSULATED_PAYLOAD) (receive_chunks n (got ++ d) k))
  end.

(** 116-138 (receive_public_key), ec.rs:36-42 (PublicKey::new) *)
Definition receive_public_key (k : curve -> list N -> proc) : proc :=
  Receive (fun p => match p with EncapsulatedHeader _ => true | _ => false end) (fun p =>
    match p with
    | EncapsulatedHeader 48 => Air (Accepted ENCAPSULATED_HEADER) (receive_chunks 3 [] (k P192))
    | EncapsulatedHeader 64 => Air (Accepted ENCAPSULATED_HEADER) (receive_chunks 4 [] (k P256))
    | _ => Panic
    end).

Definition is_confirm (p : packet) : bool := match p with SimplePairingConfirm _ => true | _ => false end.
Definition is_number (p : packet) : bool := match p with SimplePairingNumber _ => true | _ => false end.

(** 143-145 (build_commitment) *)
Definition commitment : list N := zeros 16.

(** 147-171 (receive_commitment); [confirm] is the commitment received, if any *)
Definition receive_commitment (confirm : option (list N)) (k : proc) : proc :=
  if match confirm with Some v => negb (list_eqb v commitment) | None => false end then Panic
  else
    Air (SimplePairingConfirm commitment)
    (Receive is_number (fun _ =>
    Air (Accepted SIMPLE_PAIRING_NUMBER)
    (SendAccepted (SimplePairingNumber (zeros 16)) SIMPLE_PAIRING_NUMBER (fun _ => k)))).

(** 173-192 (send_commitment) *)
Definition send_commitment (confirm : list N) (k : proc) : proc :=
  if negb (list_eqb confirm commitment) then Panic
  else
    SendAccepted (SimplePairingNumber (zeros 16)) SIMPLE_PAIRING_NUMBER (fun _ =>
    Receive is_number (fun _ =>
    Air (Accepted SIMPLE_PAIRING_NUMBER) k)).

Definition value_of (p : packet) : list N := match p with SimplePairingConfirm v => v | _ => [] end.

(** 194-231 (user_confirmation_request) *)
Definition user_confirmation_request (a : address) (k : bool -> proc) : proc :=
  Tell (UserConfirmationRequest a 27)
  (Hci (fun c => match c with ConfirmationReply _ | ConfirmationNegative _ => true | _ => false end) (fun c =>
    match c with
    | ConfirmationReply _ => Tell (Complete kConfirmationReply SUCCESS a) (k true)
    | _ => Tell (Complete kConfirmationNegative SUCCESS a) (k false)
    end)).

(** 233-270 (user_passkey_request) *)
Definition user_passkey_request (a : address) (k : bool -> proc) : proc :=
  Tell (UserPasskeyRequest a) (Keypad a k).

(** 272-303 (remote_oob_data_request) *)
Definition remote_oob_data_request (a : address) (k : bool -> proc) : proc :=
  Tell (RemoteOobDataRequest a)
  (Hci (fun c => match c with OobReply _ | OobNegative _ => true | _ => false end) (fun c =>
    match c with
    | OobReply _ => Tell (Complete kOobReply SUCCESS a) (k true)
    | _ => Tell (Complete kOobNegative SUCCESS a) (k false)
    end)).

(** 384-391 of initiate and 606-611 of respond: a new key pair; the panics are those of ec.rs *)
Definition new_key (c : curve) (k : list N -> list N -> proc) : proc :=
  Draw c (fun r =>
    match generate c r with
    | None => Panic
    | Some private => match derive c private with None => Panic | Some public => k private public end
    end).

Definition with_secret (c : curve) (private public : list N) (k : proc) : proc :=
  match shared_secret c private public with None => Panic | Some _ => k end.

(** 441-448: the loop of initiate, run [n] times *)
Fixpoint initiator_rounds (n : nat) (k : proc) : proc :=
  match n with
  | O => k
  | S n =>
      Air (SimplePairingConfirm commitment)
      (Receive is_confirm (fun p => send_commitment (value_of p) (initiator_rounds n k)))
  end.

(** 397-466: stage 1 of initiate *)
Definition initiator_stage1 (a : address) (i : params) (m : method) (k : bool -> proc) : proc :=
  match m with
  | JustWorks | UserConfirm =>
      Receive is_confirm (fun p =>
      send_commitment (value_of p)
      (user_confirmation_request a (fun ok =>
        if ok then k true else Air NumericComparisonFailed (k false))))
  | PasskeyEntry =>
      let rest := fun p => send_commitment (value_of p) (initiator_rounds 19 (k true)) in
      if is_keyboard (io i) then
        user_passkey_request a (fun ok =>
          if ok then Air (SimplePairingConfirm commitment) (Receive is_confirm rest)
          else Air PasskeyFailed (k false))
      else
        Tell (UserPasskeyNotification a 0)
        (Air (SimplePairingConfirm commitment)
        (Receive (fun p => match p with SimplePairingConfirm _ | NotAccepted _ _ => true | _ => false end) (fun p =>
          match p with NotAccepted _ _ => k false | _ => rest p end)))
  | OutOfBand =>
      let rest :=
        Air (SimplePairingConfirm commitment)
        (Receive is_confirm (fun p => send_commitment (value_of p) (k true))) in
      if is_present (oob i) then remote_oob_data_request a (fun ok => if ok then rest else k false)
      else rest
  end.

(** 476-522: stage 2 of initiate and the link key *)
Definition initiator_stage2 (a : address) (m : method) (c : curve) (k : bool -> proc) : proc :=
  SendAccepted (DhkeyCheck (zeros 16)) DHKEY_CHECK (fun ok =>
    if ok then
      Receive (fun p => match p with DhkeyCheck _ => true | _ => false end) (fun _ =>
      Air (Accepted DHKEY_CHECK)
      (Tell (SimplePairingComplete SUCCESS a)
      (send_challenge (fun ok =>
      receive_challenge
        (if ok then Tell (LinkKeyNotification a (link_key_type m c) (repeat 1 16)) (k true) else k false)))))
    else Tell (SimplePairingComplete AUTHENTICATION_FAILURE a) (k false)).

(** 380-523: the part of initiate that follows the exchange of the capabilities *)
Definition initiator_keys (a : address) (i r : params) (k : bool -> proc) : proc :=
  supported_on_both 1 SC_HOST (fun sc =>
  let c := if sc then P256 else P192 in
  new_key c (fun private public =>
  send_public_key public
  (receive_public_key (fun _ peer_key =>
  with_secret c private peer_key
  (let m := authentication_method i r in
   initiator_stage1 a i m (fun ok =>
     if ok then initiator_stage2 a m c k
     else Tell (SimplePairingComplete AUTHENTICATION_FAILURE a) (k false))))))).

Definition is_io_reply (c : command) : bool := match c with IoReply _ _ | IoNegative _ _ => true | _ => false end.

(** 308-523 (initiate) *)
Definition pairing_initiate (a : address) (k : bool -> proc) : proc :=
  Tell (IoCapabilityRequest a)
  (Hci is_io_reply (fun c =>
    match c with
    | IoReply _ i =>
        Tell (Complete kIoReply SUCCESS a)
        (Air (IoCapabilityReq (capability_byte (io i)) (oob_byte (oob i)) (requirements_byte (auth i)))
        (Receive (fun p => match p with IoCapabilityRes _ _ _ => true | _ => false end) (fun p =>
          match p with
          | IoCapabilityRes x y z =>
              match byte_capability x, byte_oob y, byte_requirements z with
              | Some x, Some y, Some z =>
                  Tell (IoCapabilityResponse a (Params x y z)) (initiator_keys a i (Params x y z) k)
              | _, _, _ => Panic
              end
          | _ => Panic
          end)))
    | _ =>
        Tell (Complete kIoNegative SUCCESS a)
        (Tell (SimplePairingComplete AUTHENTICATION_FAILURE a) (k false))
    end)).

(** 658-661: the loop of respond, run [n] times *)
Fixpoint responder_rounds (n : nat) (k : proc) : proc :=
  match n with
  | O => k
  | S n => Receive is_confirm (fun p => receive_commitment (Some (value_of p)) (responder_rounds n k))
  end.

(** 616-676: stage 1 of respond. The argument of [k] is Ok(negative_user_confirmation) or, for
    None, Err. *)
Definition responder_stage1 (a : address) (r : params) (m : method) (k : option bool -> proc) : proc :=
  match m with
  | JustWorks | UserConfirm =>
      receive_commitment None (user_confirmation_request a (fun ok => k (Some (negb ok))))
  | PasskeyEntry =>
      let rest := fun p => receive_commitment (Some (value_of p)) (responder_rounds 19 (k (Some false))) in
      if is_keyboard (io r) then
        user_passkey_request a (fun ok =>
          Receive is_confirm (fun p =>
            if ok then rest p
            else Air (NotAccepted SIMPLE_PAIRING_CONFIRM AUTHENTICATION_FAILURE) (k None)))
      else
        Tell (UserPasskeyNotification a 0)
        (Receive (fun p => match p with SimplePairingConfirm _ | PasskeyFailed => true | _ => false end) (fun p =>
          match p with PasskeyFailed => k None | _ => rest p end))
  | OutOfBand =>
      let rest := Receive is_confirm (fun p => receive_commitment (Some (value_of p)) (k (Some false))) in
      if is_present (oob r) then remote_oob_data_request a (fun _ => rest) else rest
  end.

(** 689-750: the rest of respond *)
Definition responder_stage2 (a : address) (m : method) (c : curve) (negative : bool) (k : bool -> proc) : proc :=
  Receive (fun p => match p with NumericComparisonFailed | DhkeyCheck _ => true | _ => false end) (fun p =>
    match p with
    | NumericComparisonFailed => Tell (SimplePairingComplete AUTHENTICATION_FAILURE a) (k false)
    | _ =>
        if negative then
          Air (NotAccepted DHKEY_CHECK AUTHENTICATION_FAILURE)
          (Tell (SimplePairingComplete AUTHENTICATION_FAILURE a) (k false))
        else
          Air (Accepted DHKEY_CHECK)
          (SendAccepted (DhkeyCheck (zeros 16)) DHKEY_CHECK (fun _ =>
          Tell (SimplePairingComplete SUCCESS a)
          (receive_challenge
          (send_challenge (fun ok =>
            if ok then Tell (LinkKeyNotification a (link_key_type m c) (repeat 1 16)) (k true) else k false)))))
    end).

(** 603-751: the part of respond that follows the exchange of the capabilities *)
Definition responder_keys (a : address) (i r : params) (k : bool -> proc) : proc :=
  receive_public_key (fun c peer_key =>
  new_key c (fun private public =>
  send_public_key public
  (with_secret c private peer_key
  (let m := authentication_method i r in
   responder_stage1 a r m (fun x =>
     match x with
     | None => Tell (SimplePairingComplete AUTHENTICATION_FAILURE a) (k false)
     | Some negative => responder_stage2 a m c negative k
     end))))).

(** 525-751 (respond) *)
Definition pairing_respond (a : address) (x y z : N) (k : bool -> proc) : proc :=
  match byte_capability x, byte_oob y, byte_requirements z with
  | Some x, Some y, Some z =>
      let i := Params x y z in
      Tell (IoCapabilityResponse a i)
      (Tell (IoCapabilityRequest a)
      (Hci is_io_reply (fun c =>
        match c with
        | IoReply _ r =>
            Tell (Complete kIoReply SUCCESS a)
            (Air (IoCapabilityRes (capability_byte (io r)) (oob_byte (oob r)) (requirements_byte (auth r)))
            (responder_keys a i r k))
        | IoNegative b reason =>
            Tell (Complete kIoNegative SUCCESS a)
            (Air (NotAcceptedExt X_IO_CAPABILITY_REQ reason)
            (Tell (SimplePairingComplete AUTHENTICATION_FAILURE b) (k false)))
        | _ => Panic
        end)))
  | _, _, _ => Panic
  end.

(** * The procedures of a link *)

Definition is_key_reply (c : command) : bool := match c with LinkKeyReply _ _ | LinkKeyNegative _ => true | _ => false end.

(** authentication.rs:47-106 (initiate) *)
Definition authentication_initiate (a : address) : proc :=
  Hci (fun c => match c with AuthenticationRequested _ => true | _ => false end) (fun _ =>
  Tell (Status kAuthenticationRequested SUCCESS)
  (Tell (LinkKeyRequest a)
  (Hci is_key_reply (fun c =>
    let finish := fun s => Handle (fun h => Tell (AuthenticationComplete s h) Done) in
    match c with
    | LinkKeyReply _ _ =>
        Tell (Complete kLinkKeyReply SUCCESS a)
        (send_challenge (fun ok => finish (if ok then SUCCESS else PIN_OR_KEY_MISSING)))
    | _ =>
        Tell (Complete kLinkKeyNegative SUCCESS a)
        (supported_on_both 1 SSP_HOST (fun ssp =>
          let k := fun ok : bool => finish (if ok then SUCCESS else AUTHENTICATION_FAILURE) in
          if ssp then pairing_initiate a k else legacy_initiate a k))
    end)))).

(** authentication.rs:108-170 (respond) *)
Definition authentication_respond (a : address) : proc :=
  Receive (fun p => match p with AuRand _ | IoCapabilityReq _ _ _ | InRand _ => true | _ => false end) (fun p =>
    match p with
    | AuRand _ =>
        Tell (LinkKeyRequest a)
        (Hci is_key_reply (fun c =>
          match c with
          | LinkKeyReply _ _ => Tell (Complete kLinkKeyReply SUCCESS a) (Air (Sres (zeros 4)) Done)
          | _ => Tell (Complete kLinkKeyNegative SUCCESS a) (Air (NotAccepted AU_RAND PIN_OR_KEY_MISSING) Done)
          end))
    | IoCapabilityReq x y z => pairing_respond a x y z (fun _ => Done)
    | _ => legacy_respond a (fun _ => Done)
    end).

(** encryption.rs:56-67 and 90-101: the end of both procedures *)
Definition encryption_change : proc :=
  let finish := fun aes => Handle (fun h => Tell (EncryptionChange SUCCESS h aes) Done) in
  supported_on_both 1 SC_HOST (fun x =>
    if x then supported_on_both 2 SC_CONTROLLER finish else finish false).

(** encryption.rs:25-68 (initiate) *)
Definition encryption_initiate : proc :=
  Hci (fun c => match c with SetConnectionEncryption _ _ => true | _ => false end) (fun _ =>
  Tell (Status kSetConnectionEncryption SUCCESS)
  (SendAccepted (EncryptionModeReq 1) ENCRYPTION_MODE_REQ (fun _ =>
  SendAccepted (EncryptionKeySizeReq 16) ENCRYPTION_KEY_SIZE_REQ (fun _ =>
  SendAccepted (StartEncryptionReq (zeros 16)) START_ENCRYPTION_REQ (fun _ =>
  encryption_change))))).

(** encryption.rs:70-102 (respond) *)
Definition encryption_respond : proc :=
  Receive (fun p => match p with EncryptionModeReq _ => true | _ => false end) (fun _ =>
  Air (Accepted ENCRYPTION_MODE_REQ)
  (Receive (fun p => match p with EncryptionKeySizeReq _ => true | _ => false end) (fun _ =>
  Air (Accepted ENCRYPTION_KEY_SIZE_REQ)
  (Receive (fun p => match p with StartEncryptionReq _ => true | _ => false end) (fun _ =>
  Air (Accepted START_ENCRYPTION_REQ) encryption_change))))).

(** The five procedures of a link; [Manager] stands for the manager itself in the log. *)
Inductive who := Manager | Authenticating | Authenticated | Encrypting | Encrypted | Featured.

(** procedure/mod.rs:151-159 (run) *)
Definition start (w : who) (a : address) : proc :=
  match w with
  | Manager => Done
  | Authenticating => authentication_initiate a
  | Authenticated => authentication_respond a
  | Encrypting => encryption_initiate
  | Encrypted => encryption_respond
  | Featured => features_respond
  end.

(** procedure/mod.rs:151-159 (run): the order of the polls *)
Definition runners : list who := [Authenticating; Authenticated; Encrypting; Encrypted; Featured].

Definition starts (a : address) : list (who * proc) := map (fun w => (w, start w a)) runners.

(** * Running *)

(** rust/src/lmp/manager.rs:32-38 *)
Record link := Link { peer : address; hci : option command; queue : list packet }.

(** rust/src/ffi.rs:31-80: the callbacks. [features] gives None where the C++ side reads past the
    end of its array (bredr_controller.h:305-307). *)
Record env := Env { handle_of : address -> N; address_of : N -> address; features : N -> option N }.

(** What a procedure does: an event sent to the host, a packet sent to the peer, a command or a
    packet taken, the answer of a callback (local features, connection handle), random bytes
    drawn. *)
Inductive action :=
| Said (e : event) | Sent (p : packet) | Took (c : command) | Heard (p : packet)
| Looked (page f : N) | Named (handle : N) | Drew (c : curve) (r : list N).

(** An entry of the log: on which link, by which procedure, what. The host and the peer see the
    events and the packets, not the names of the procedures. *)
Record entry := Entry { on : address; by_ : who; what : action }.

(** How a poll ends. *)
Inductive stop := Waiting (p : proc) | Finished | Panicked | OutOfBounds.

Record progress := Progress { at_stop : stop; at_link : link; done : list action; draws : nat }.

Definition with_hci (h : option command) (l : link) : link := Link (peer l) h (queue l).
Definition with_queue (q : list packet) (l : link) : link := Link (peer l) (hci l) q.

Definition log (o : action) (g : progress) : progress :=
  Progress (at_stop g) (at_link g) (o :: done g) (draws g).

(** Results of running the manager: a panic of Rust or a failed assertion of C++ ends the
    program. *)
Inductive result (A : Type) := Ok (x : A) | Abort | Unbounded | Hang.
Arguments Ok {A}. Arguments Abort {A}. Arguments Unbounded {A}. Arguments Hang {A}.

Definition bind {A B : Type} (r : result A) (f : A -> result B) : result B :=
  match r with Ok x => f x | Abort => Abort | Unbounded => Unbounded | Hang => Hang end.

Section Random.
(** rand::thread_rng: the 32 bytes of draw number [n], of which a P-192 key takes 24 *)
Variable rng : nat -> list N.

(** manager.rs:59-83 (poll_hci_command, poll_lmp_packet), 307-361 (LinkContext),
    procedure/mod.rs:69-109 (ReceiveFuture, SendAcceptedLmpPacketFuture): run a procedure until
    it has to wait *)
Fixpoint poll (e : env) (p : proc) (l : link) (n : nat) : progress :=
  match p with
  | Done => Progress Finished l [] n
  | Panic => Progress Panicked l [] n
  | Tell v k => log (Said v) (poll e k l n)
  | Air x k => log (Sent x) (poll e k l n)
  | Features page k =>
      match features e page with
      | Some f => log (Looked page f) (poll e (k f) l n)
      | None => Progress OutOfBounds l [] n
      end
  | Handle k => log (Named (handle_of e (peer l))) (poll e (k (handle_of e (peer l))) l n)
  | Draw c k => let r := firstn (key_size c) (rng n) in log (Drew c r) (poll e (k r) l (S n))
  | Hci wanted k =>
      match hci l with
      | Some c => if wanted c then log (Took c) (poll e (k c) (with_hci None l) n) else Progress (Waiting p) l [] n
      | None => Progress (Waiting p) l [] n
      end
  | Receive wanted k =>
      match queue l with
      | x :: q => if wanted x then log (Heard x) (poll e (k x) (with_queue q l) n) else Progress (Waiting p) l [] n
      | [] => Progress (Waiting p) l [] n
      end
  | Await opcode k =>
      (* an Accepted packet at the front is removed whatever it accepts, then a NotAccepted one *)
      let refused := fun l =>
        match queue l with
        | NotAccepted o x :: q =>
            log (Heard (NotAccepted o x))
              (if o =? opcode then poll e (k false) (with_queue q l) n
               else Progress (Waiting p) (with_queue q l) [] n)
        | _ => Progress (Waiting p) l [] n
        end in
      match queue l with
      | Accepted o :: q =>
          log (Heard (Accepted o))
            (if o =? opcode then poll e (k true) (with_queue q l) n else refused (with_queue q l))
      | _ => refused l
      end
  | Keypad a k =>
      let answer := fun c g => log (Took c) (log (Said (Complete (kind_of c) SUCCESS a)) g) in
      match hci l with
      | Some (PasskeyReply b v) => answer (PasskeyReply b v) (poll e (k true) (with_hci None l) n)
      | Some (PasskeyNegative b) => answer (PasskeyNegative b) (poll e (k false) (with_hci None l) n)
      | Some (Keypress b) => answer (Keypress b) (Progress (Waiting p) (with_hci None l) [] n)
      | _ => Progress (Waiting p) l [] n
      end
  end.

(** procedure/mod.rs:117-149 (run_procedures): loop { procedure.await }; the procedure starts
    again as soon as it has ended. The fuel is the number of messages left. *)
Fixpoint spin (fuel : nat) (e : env) (first p : proc) (l : link) (n : nat) : result (proc * link * list action * nat) :=
  let g := poll e p l n in
  match at_stop g with
  | Waiting q => Ok (q, at_link g, done g, draws g)
  | Panicked => Abort
  | OutOfBounds => Unbounded
  | Finished =>
      match fuel with
      | O => Hang
      | S fuel =>
          bind (spin fuel e first first (at_link g) (draws g)) (fun r =>
          let '(q, l, o, n) := r in Ok (q, l, done g ++ o, n))
      end
  end.

Definition messages (l : link) : nat :=
  (match hci l with Some _ => 1 | None => 0 end + List.length (queue l))%nat.

(** procedure/mod.rs:139-142: every procedure is polled once, in order *)
Fixpoint poll_all (e : env) (ps : list (who * proc)) (l : link) (n : nat)
  : result (list (who * proc) * link * list entry * nat) :=
  match ps with
  | [] => Ok ([], l, [], n)
  | (w, p) :: ps =>
      bind (spin (S (messages l)) e (start w (peer l)) p l n) (fun r =>
      let '(q, k, o, n) := r in
      bind (poll_all e ps k n) (fun r =>
      let '(qs, k, o2, n) := r in
      Ok ((w, q) :: qs, k, map (Entry (peer l) w) o ++ o2, n)))
  end.

(** * The manager, rust/src/lmp/manager.rs *)

(** 105-109: a link and the procedures that run on it *)
Record slot := Slot { s_link : link; s_procs : option (list (who * proc)) }.

(** 40-48 *)
Definition idle_slot : slot := Slot (Link EMPTY None []) None.

(** 105-109; [drawn] counts the keys drawn so far *)
Record manager := Managing { slots : list slot; drawn : nat }.

(** 103 (MAX_PEER_NUMBER) and 112-114 (new) *)
Definition new_manager (n : nat) : manager := Managing (repeat idle_slot 7) n.

(** 131-238 (send_command_complete_event): None for a command that is not handled *)
Definition refusal (c : command) (s : status) : option event :=
  match c with
  | AuthenticationRequested _ | SetConnectionEncryption _ _ => Some (Status (kind_of c) s)
  | LinkKeyReply a _ | LinkKeyNegative a | PinReply a | PinNegative a | IoReply a _ | IoNegative a _
  | ConfirmationReply a | ConfirmationNegative a | PasskeyReply a _ | PasskeyNegative a | OobReply a
  | OobNegative a | Keypress a => Some (Complete (kind_of c) s a)
  | OobExtendedReply _ => None
  end.

(** rust/src/packets.rs:58-87 (command_remote_device_address, command_connection_handle) and
    manager.rs:241-245, rust/src/ffi.rs:53-58 (no address is the empty one) *)
Definition target (e : env) (c : command) : option address :=
  match c with
  | AuthenticationRequested h | SetConnectionEncryption h _ =>
      if address_of e h =? EMPTY then None else Some (address_of e h)
  | LinkKeyReply a _ | LinkKeyNegative a | PinReply a | PinNegative a | IoReply a _ | IoNegative a _
  | ConfirmationReply a | ConfirmationNegative a | PasskeyReply a _ | PasskeyNegative a | OobReply a
  | OobNegative a | Keypress a => Some a
  | OobExtendedReply _ => None
  end.

(** 116-118 (get_link) and Iterator::position: the first slot of a peer *)
Fixpoint find_peer (a : address) (l : list slot) : option slot :=
  match l with
  | [] => None
  | s :: l => if peer (s_link s) =? a then Some s else find_peer a l
  end.

(** the slots after a change of the first slot of a peer *)
Fixpoint at_peer (a : address) (f : slot -> slot) (l : list slot) : list slot :=
  match l with
  | [] => []
  | s :: l => if peer (s_link s) =? a then f s :: l else s :: at_peer a f l
  end.

Definition set_link (l : link) (s : slot) : slot := Slot l (s_procs s).

(** 289-300 *)
Fixpoint tick_slots (e : env) (l : list slot) (n : nat) : result (list slot * list entry * nat) :=
  match l with
  | [] => Ok ([], [], n)
  | s :: l =>
      bind
        match s_procs s with
        | None => Ok (s, [], n)
        | Some ps =>
            bind (poll_all e ps (s_link s) n) (fun r =>
            let '(qs, k, o, n) := r in Ok (Slot k (Some qs), o, n))
        end
        (fun r =>
         let '(s, o, n) := r in
         bind (tick_slots e l n) (fun r =>
         let '(l, o2, n) := r in Ok (s :: l, o ++ o2, n)))
  end.

Inductive op :=
| IngestHci (c : command)
| IngestLmp (from : address) (p : packet)
| AddLink (a : address)
| RemoveLink (a : address)
| Tick
| Reset.

Definition answer (a : address) (v : option event) : result (list entry) :=
  match v with Some v => Ok [Entry a Manager (Said v)] | None => Abort end.

(** The calls of the C++ side. An error returned by the Link Manager fails an assertion there
    (bredr_controller.cc:189, 266, 1674, 1911, 2044, 2094). *)
Definition step (e : env) (m : manager) (o : op) : result (manager * list entry) :=
  match o with
  | IngestHci c =>
      (* 240-253, 55-57 *)
      match target e c with
      | None => bind (answer EMPTY (refusal c INVALID_PARAMETERS)) (fun o => Ok (m, o))
      | Some a =>
          match find_peer a (slots m) with
          | None => bind (answer a (refusal c INVALID_PARAMETERS)) (fun o => Ok (m, o))
          | Some s =>
              match hci (s_link s) with
              | Some _ => Abort
              | None => Ok (Managing (at_peer a (fun s => set_link (with_hci (Some c) (s_link s)) s) (slots m)) (drawn m), [])
              end
          end
      end
  | IngestLmp from p =>
      (* 120-129 *)
      Ok (Managing (at_peer from (fun s => set_link (with_queue (queue (s_link s) ++ [p]) (s_link s)) s) (slots m)) (drawn m), [])
  | AddLink a =>
      (* 255-269 *)
      match find_peer EMPTY (slots m) with
      | None => Abort
      | Some _ =>
          Ok (Managing (at_peer EMPTY (fun s => Slot (Link a (hci (s_link s)) (queue (s_link s))) (Some (starts a))) (slots m))
                (drawn m), [])
      end
  | RemoveLink a =>
      (* 271-287 *)
      match find_peer a (slots m) with
      | None => Abort
      | Some s =>
          let m := Managing (at_peer a (fun _ => idle_slot) (slots m)) (drawn m) in
          match hci (s_link s) with
          | None => Ok (m, [])
          | Some c => bind (answer a (refusal c UNKNOWN_CONNECTION)) (fun o => Ok (m, o))
          end
      end
  | Tick =>
      (* 289-300 *)
      bind (tick_slots e (slots m) (drawn m)) (fun r => let '(l, o, n) := r in Ok (Managing l n, o))
  | Reset => Ok (new_manager (drawn m), []) (* bredr_controller.cc:1121 *)
  end.

(** A history of calls, each with what the C++ side would answer to the callbacks. *)
Fixpoint run (m : manager) (h : list (env * op)) : result (manager * list entry) :=
  match h with
  | [] => Ok (m, [])
  | (e, o) :: h =>
      bind (step e m o) (fun r =>
      let '(m, l) := r in
      bind (run m h) (fun r => let '(m, l2) := r in Ok (m, l ++ l2)))
  end.

End Random.

Arguments Ok {A}. Arguments Abort {A}. Arguments Unbounded {A}. Arguments Hang {A}.
