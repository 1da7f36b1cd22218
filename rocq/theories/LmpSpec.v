(** Vocabulary of the Link Manager properties: small automata that read what one procedure of one
    link does, independent of the code, and functions of the histories and of the logs. *)
From Verif Require Import Prelude Ec Lmp.
Open Scope N_scope.

(** * Logs and histories *)

(** What the procedure [w] did on the link with [a]. *)
Definition part (a : address) (w : who) (l : list entry) : list action :=
  map what (filter (fun x => (on x =? a) && match by_ x, w with
    | Manager, Manager | Authenticating, Authenticating | Authenticated, Authenticated
    | Encrypting, Encrypting | Encrypted, Encrypted | Featured, Featured => true
    | _, _ => false end) l).

(** What the host is told. *)
Fixpoint told (l : list entry) : list event :=
  match l with
  | [] => []
  | Entry _ _ (Said e) :: l => e :: told l
  | _ :: l => told l
  end.

(** The operation codes of the commands answered on a link: Command Complete and Status events. *)
Fixpoint answered (a : address) (l : list entry) : list kind :=
  match l with
  | [] => []
  | Entry b _ (Said (Complete k _ _)) :: l | Entry b _ (Said (Status k _)) :: l =>
      if b =? a then k :: answered a l else answered a l
  | _ :: l => answered a l
  end.

(** The command that an event answers, and the status in it. *)
Definition answer_in (v : event) : option (kind * status) :=
  match v with Complete k s _ | Status k s => Some (k, s) | _ => None end.

(** The operation codes of the commands given for a link. *)
Fixpoint given (a : address) (h : list (env * op)) : list kind :=
  match h with
  | [] => []
  | (e, IngestHci c) :: h =>
      match target e c with
      | Some b => if b =? a then kind_of c :: given a h else given a h
      | None => given a h
      end
  | _ :: h => given a h
  end.

(** The packets received on a link, and those a procedure of it took. *)
Fixpoint received (a : address) (h : list (env * op)) : list packet :=
  match h with
  | [] => []
  | (_, IngestLmp b p) :: h => if b =? a then p :: received a h else received a h
  | _ :: h => received a h
  end.

Fixpoint heard (a : address) (l : list entry) : list packet :=
  match l with
  | [] => []
  | Entry b _ (Heard p) :: l => if b =? a then p :: heard a l else heard a l
  | _ :: l => heard a l
  end.

(** The peers that are linked after a history, told from the calls. *)
Fixpoint linked (h : list (env * op)) (l : list address) : list address :=
  match h with
  | [] => l
  | (_, AddLink a) :: h => linked h (a :: l)
  | (_, RemoveLink a) :: h => linked h (filter (fun b => negb (b =? a)) l)
  | (_, Reset) :: h => linked h []
  | _ :: h => linked h l
  end.

(** The C++ side adds a link only to a peer that has none, and no message names the empty
    address. *)
Fixpoint orderly (l : list address) (h : list (env * op)) : Prop :=
  match h with
  | [] => True
  | (e, o) :: h =>
      match o with
      | AddLink a => a <> EMPTY /\ ~ In a l
      | IngestHci c => target e c <> Some EMPTY
      | IngestLmp a _ => a <> EMPTY
      | RemoveLink a => a <> EMPTY
      | _ => True
      end /\ orderly (linked [(e, o)] l) h
  end.

(** The link with [a] stays. *)
Definition stays (a : address) (h : list (env * op)) : Prop :=
  forall e o, In (e, o) h -> o <> RemoveLink a /\ o <> AddLink a /\ o <> Reset.

(** The log [l] of a link with [a] that is added after the history [pre] and stays throughout
    [h]. *)
Definition in_session (rng : nat -> list N) (n : nat) (pre : list (env * op)) (e : env) (a : address) (h : list (env * op)) (l : list entry) : Prop :=
  exists m l0 m', run rng (new_manager n) pre = Ok (m, l0) /\ orderly [] (pre ++ (e, AddLink a) :: h) /\
    stays a h /\ run rng m ((e, AddLink a) :: h) = Ok (m', l).

(** * Automata *)

(** An automaton: its states, those in which nothing is going on, those in which it may wait for a
    message, and its moves. *)
Record machine := Machine {
  state : Type; resting : state -> bool; pausing : state -> bool; next : state -> action -> option state }.

Fixpoint drive (M : machine) (s : state M) (l : list action) : option (state M) :=
  match l with
  | [] => Some s
  | x :: l => match next M s x with Some s => drive M s l | None => None end
  end.

(** The automaton reads the whole list, from a state of rest to one in which it may wait. *)
Definition obeys (M : machine) (s : state M) (l : list action) : Prop :=
  resting M s = true /\ exists t, drive M s l = Some t /\ pausing M t = true.

(** ** Answers to commands

    Right after a command is taken it is answered, with success and the address of the link;
    nothing else is an answer. *)
Definition kind_eqb (x y : kind) : bool :=
  match x, y with
  | kAuthenticationRequested, kAuthenticationRequested | kSetConnectionEncryption, kSetConnectionEncryption
  | kLinkKeyReply, kLinkKeyReply | kLinkKeyNegative, kLinkKeyNegative | kPinReply, kPinReply | kPinNegative, kPinNegative
  | kIoReply, kIoReply | kIoNegative, kIoNegative | kConfirmationReply, kConfirmationReply
  | kConfirmationNegative, kConfirmationNegative | kPasskeyReply, kPasskeyReply | kPasskeyNegative, kPasskeyNegative
  | kOobReply, kOobReply | kOobNegative, kOobNegative | kKeypress, kKeypress | kOobExtendedReply, kOobExtendedReply => true
  | _, _ => false
  end.

Definition Answering (a : address) : machine :=
  Machine (option command) (fun s => match s with None => true | _ => false end)
    (fun s => match s with None => true | _ => false end)
    (fun s x =>
       match s, x with
       | None, Took c => Some (Some c)
       | None, Said (Complete _ _ _) | None, Said (Status _ _) => None
       | None, _ => Some None
       | Some c, Said (Status k 0) =>
           match c with
           | AuthenticationRequested _ | SetConnectionEncryption _ _ => if kind_eqb k (kind_of c) then Some None else None
           | _ => None
           end
       | Some c, Said (Complete k 0 b) =>
           match c with
           | AuthenticationRequested _ | SetConnectionEncryption _ _ => None
           | _ => if kind_eqb k (kind_of c) && (b =? a) then Some None else None
           end
       | Some _, _ => None
       end).

(** ** The outcome of an authentication

    Every accepted Authentication Requested command leads to one Authentication Complete event.
    With a link key it tells what the peer answered to the challenge; without one it is a success
    only if a new link key was just reported. The handle is the one of the link. A known outcome is
    reported at once. *)
Inductive authentication :=
| Quiet                          (* no authentication *)
| Requested                      (* the command was accepted *)
| Keyed                          (* the host has the link key *)
| Unkeyed                        (* the host has no link key *)
| Decided (s : status)           (* the outcome is known *)
| Reporting (s : status) (h : N) (* and the handle *).

Definition Authentication : machine :=
  Machine authentication (fun s => match s with Quiet => true | _ => false end)
    (fun s => match s with Decided _ | Reporting _ _ => false | _ => true end)
    (fun s x =>
       match x with
       | Said (Status kAuthenticationRequested 0) => match s with Quiet => Some Requested | _ => None end
       | Said (Status kAuthenticationRequested _) => None
       | Took (LinkKeyReply _ _) => match s with Requested => Some Keyed | _ => None end
       | Took (LinkKeyNegative _) => match s with Requested => Some Unkeyed | _ => None end
       | Heard (Sres _) => match s with Keyed => Some (Decided SUCCESS) | _ => Some s end
       | Heard (NotAccepted _ _) => match s with Keyed => Some (Decided PIN_OR_KEY_MISSING) | _ => Some s end
       | Said (LinkKeyNotification _ _ _) => match s with Unkeyed => Some (Decided SUCCESS) | _ => None end
       | Named h =>
           match s with
           | Decided v => Some (Reporting v h)
           | Unkeyed => Some (Reporting AUTHENTICATION_FAILURE h)
           | _ => None
           end
       | Said (AuthenticationComplete v h) =>
           match s with Reporting w g => if (v =? w) && (h =? g) then Some Quiet else None | _ => None end
       | _ => match s with Decided _ | Reporting _ _ => None | _ => Some s end
       end).

(** ** The outcome of a pairing

    One Simple Pairing Complete event ends what an IO Capability Request began. It is a failure
    when the host refused, and no link key follows a failure. [heeded] says which refusals are
    meant, [prompt] that a refusal ends the pairing at once. *)
Inductive pairing := Apart | Asked | Refused | Paired.

Definition refuses (c : command) : bool :=
  match c with
  | IoNegative _ _ | ConfirmationNegative _ | PasskeyNegative _ | OobNegative _ => true
  | _ => false
  end.

(** Every refusal but the missing out of band data. *)
Definition refuses_heeded (c : command) : bool := match c with OobNegative _ => false | _ => refuses c end.

Definition Pairing (heeded : command -> bool) (prompt : bool) (a : address) : machine :=
  Machine pairing (fun s => match s with Apart | Paired => true | _ => false end)
    (fun s => match s with Refused => negb prompt | _ => true end)
    (fun s x =>
       match x with
       | Said (IoCapabilityRequest b) =>
           match s with Apart | Paired => if b =? a then Some Asked else None | _ => None end
       | Took c =>
           if heeded c then match s with Asked => Some Refused | _ => None end else Some s
       | Said (SimplePairingComplete v b) =>
           if b =? a then
             match s with
             | Asked => if v =? SUCCESS then Some Paired else Some Apart
             | Refused => if v =? SUCCESS then None else Some Apart
             | _ => None
             end
           else None
       | Said (LinkKeyNotification b t _) =>
           if b =? a then
             match t, s with
             | Combination, Apart | Combination, Paired => Some s
             | Combination, _ => None
             | _, Paired => Some Apart
             | _, _ => None
             end
           else None
       | _ => Some s
       end).

(** ** The association model

    Core Specification, Vol 3, Part C, 5.2.2.6: tables 5.6 and 5.7. *)
Inductive association := Unconfirmed | Confirmed | Entered | Carried.

(** the input and output capabilities of the initiator and of the responder *)
Definition by_capabilities (i r : capability) : association :=
  match i, r with
  | DisplayOnly, DisplayOnly => Unconfirmed
  | DisplayOnly, DisplayYesNo => Unconfirmed
  | DisplayOnly, KeyboardOnly => Entered
  | DisplayOnly, NoInputNoOutput => Unconfirmed
  | DisplayYesNo, DisplayOnly => Unconfirmed
  | DisplayYesNo, DisplayYesNo => Confirmed
  | DisplayYesNo, KeyboardOnly => Entered
  | DisplayYesNo, NoInputNoOutput => Unconfirmed
  | KeyboardOnly, DisplayOnly => Entered
  | KeyboardOnly, DisplayYesNo => Entered
  | KeyboardOnly, KeyboardOnly => Entered
  | KeyboardOnly, NoInputNoOutput => Unconfirmed
  | NoInputNoOutput, _ => Unconfirmed
  end.

Definition association_of (i r : params) : association :=
  match oob i, oob r with
  | NotPresent, NotPresent =>
      match auth i, auth r with
      | (NoBonding | DedicatedBonding | GeneralBonding), (NoBonding | DedicatedBonding | GeneralBonding) => Unconfirmed
      | _, _ => by_capabilities (io i) (io r)
      end
  | _, _ => Carried
  end.

(** the type of the link key *)
Definition key_of (x : association) (c : curve) : key_type :=
  match x, c with
  | Unconfirmed, P192 => UnauthenticatedP192
  | Unconfirmed, P256 => UnauthenticatedP256
  | _, P192 => AuthenticatedP192
  | _, P256 => AuthenticatedP256
  end.

(** what the host is asked in this model, on the side with the parameters [own] *)
Definition may_ask (x : association) (own : params) (e : event) : bool :=
  match x, e with
  | (Unconfirmed | Confirmed), UserConfirmationRequest _ _ => true
  | Entered, UserPasskeyRequest _ => match io own with KeyboardOnly => true | _ => false end
  | Entered, UserPasskeyNotification _ _ => match io own with KeyboardOnly => false | _ => true end
  | Carried, RemoteOobDataRequest _ => match oob own with NotPresent => false | _ => true end
  | _, _ => false
  end.

(** the association model needs a question, and it was answered *)
Definition must_ask (x : association) (own : params) : bool :=
  match x with
  | Carried => match oob own with NotPresent => false | _ => true end
  | _ => true
  end.

(** What one side knows: its own parameters, the parameters of the peer, the curve, whether the
    host was asked. *)
Record knowledge := Knowledge { own : option params; other : option params; on_curve_ : option curve; asked : bool }.

Definition ignorant : knowledge := Knowledge None None None false.

Definition params_bytes (p : params) : N * N * N :=
  (capability_byte (io p), oob_byte (oob p), requirements_byte (auth p)).

Definition model_of (initiator : bool) (k : knowledge) : option association :=
  match own k, other k with
  | Some p, Some q => Some (if initiator then association_of p q else association_of q p)
  | _, _ => None
  end.

Definition same3 (x y : N * N * N) : bool :=
  (fst (fst x) =? fst (fst y)) && (snd (fst x) =? snd (fst y)) && (snd x =? snd y).

(** The parameters cross the air unchanged, the host is asked what the association model of both
    sides says, and the link key has the type that follows from it and from the curve. *)
Definition Association (initiator : bool) (a : address) : machine :=
  Machine (knowledge * option (N * N * N)) (fun _ => true) (fun _ => true)
    (fun s x =>
       let (k, air) := s in
       match x with
       | Heard (IoCapabilityReq x y z) => if initiator then Some s else Some (ignorant, Some (x, y, z))
       | Heard (IoCapabilityRes x y z) => Some (k, Some (x, y, z))
       | Said (IoCapabilityRequest b) => if initiator then Some (ignorant, None) else Some s
       | Said (IoCapabilityResponse b q) =>
           match air with
           | Some v => if same3 v (params_bytes q) then Some (Knowledge (own k) (Some q) None false, None) else None
           | None => None
           end
       | Took (IoReply _ p) => Some (Knowledge (Some p) (other k) None false, air)
       | Sent (IoCapabilityReq x y z) =>
           match own k with
           | Some p => if initiator && same3 (x, y, z) (params_bytes p) then Some s else None
           | None => None
           end
       | Sent (IoCapabilityRes x y z) =>
           match own k with
           | Some p => if negb initiator && same3 (x, y, z) (params_bytes p) then Some s else None
           | None => None
           end
       | Drew c _ => Some (Knowledge (own k) (other k) (Some c) false, air)
       | Said (UserConfirmationRequest _ _ as e) | Said (UserPasskeyRequest _ as e)
       | Said (UserPasskeyNotification _ _ as e) | Said (RemoteOobDataRequest _ as e) =>
           match model_of initiator k, own k with
           | Some m, Some p => if may_ask m p e then Some (Knowledge (own k) (other k) (on_curve_ k) true, air) else None
           | _, _ => None
           end
       | Said (LinkKeyNotification _ Combination _) => Some s
       | Said (LinkKeyNotification _ t _) =>
           match model_of initiator k, own k, on_curve_ k with
           | Some m, Some p, Some c =>
               if (asked k || negb (must_ask m p)) &&
                  match t, key_of m c with
                  | UnauthenticatedP192, UnauthenticatedP192 | AuthenticatedP192, AuthenticatedP192
                  | UnauthenticatedP256, UnauthenticatedP256 | AuthenticatedP256, AuthenticatedP256 => true
                  | _, _ => false
                  end
               then Some s else None
           | _, _, _ => None
           end
       | _ => Some s
       end).

(** ** The public key

    After random bytes are drawn, the public key of the private key made from them is sent: a
    header with its length, then its bytes in order, 16 in each packet, before anything else of
    the pairing. *)
Inductive exchange := Idle | Announcing (key : list N) | Sending (rest : list N).

Definition Exchange : machine :=
  Machine exchange (fun s => match s with Idle => true | _ => false end)
    (fun s => match s with Announcing _ => false | _ => true end)
    (fun s x =>
       match x with
       | Drew c r =>
           match s, generate c r with
           | Idle, Some private => match derive c private with Some public => Some (Announcing public) | None => Some s end
           | Idle, None => Some s
           | _, _ => None
           end
       | Sent (EncapsulatedHeader n) =>
           match s with Announcing key => if n =? lenN key then Some (Sending key) else None | _ => None end
       | Sent (EncapsulatedPayload d) =>
           match s with
           | Sending rest =>
               if (lenN d =? 16) && list_eqb d (firstn 16 rest) && (16 <=? lenN rest) then
                 Some (if lenN rest =? 16 then Idle else Sending (skipn 16 rest))
               else None
           | _ => None
           end
       | Sent _ | Said _ => match s with Idle => Some s | _ => None end
       | _ => Some s
       end).

(** ** Encryption

    One Encryption Change event follows each accepted Set Connection Encryption command, with the
    handle of the link. It reports AES-CCM exactly if Secure Connections is supported by the hosts
    and the controllers of both sides, as far as they were asked. *)
Record support := Support { wanted_page : N; local1 : option N; remote1 : option N; local2 : option N; remote2 : option N }.

Definition unknown : support := Support 0 None None None None.

Inductive encryption := Plain | Working (s : support) | Changing (s : support) (h : N).

Definition bit (mask : N) (x : option N) : option bool :=
  match x with Some v => Some (negb (N.land v mask =? 0)) | None => None end.

(** the first answer counts *)
Definition first (x : option N) (f : N) : option N := match x with None => Some f | _ => x end.

Definition is_true (x : option bool) : bool := match x with Some b => b | None => false end.
Definition is_false (x : option bool) : bool := match x with Some b => negb b | None => false end.

Definition bits (s : support) : list (option bool) :=
  [bit SC_HOST (local1 s); bit SC_HOST (remote1 s); bit SC_CONTROLLER (local2 s); bit SC_CONTROLLER (remote2 s)].

Definition Encryption (initiator : bool) : machine :=
  Machine encryption (fun s => match s with Plain => true | _ => false end)
    (fun s => match s with Changing _ _ => false | _ => true end)
    (fun s x =>
       match x with
       | Said (Status kSetConnectionEncryption 0) =>
           match s with Plain => if initiator then Some (Working unknown) else None | _ => None end
       | Sent (Accepted 17) => (* START_ENCRYPTION_REQ *)
           match s with Plain => if initiator then None else Some (Working unknown) | _ => None end
       | Looked page f =>
           match s with
           | Working (Support w a b c d) =>
               if page =? 1 then Some (Working (Support w (first a f) b c d))
               else if page =? 2 then Some (Working (Support w a b (first c f) d)) else Some s
           | _ => Some s
           end
       | Sent (FeaturesReqExt page _) =>
           match s with
           | Working (Support _ a b c d) => Some (Working (Support page a b c d))
           | _ => Some s
           end
       | Heard (FeaturesResExt _ f) =>
           match s with
           | Working (Support w a b c d) =>
               if w =? 1 then Some (Working (Support w a (Some f) c d))
               else if w =? 2 then Some (Working (Support w a b c (Some f))) else Some s
           | _ => Some s
           end
       | Named h => match s with Working k => Some (Changing k h) | _ => None end
       | Said (EncryptionChange v h aes) =>
           match s with
           | Changing k g =>
               if (v =? SUCCESS) && (h =? g) && (if aes then forallb is_true (bits k) else existsb is_false (bits k))
               then Some Plain else None
           | _ => None
           end
       | _ => match s with Changing _ _ => None | _ => Some s end
       end).

(** ** Features

    A request for features is answered with the page asked for and the local features of it. *)
Definition Describing : machine :=
  Machine (option (N * option N)) (fun s => match s with None => true | _ => false end)
    (fun s => match s with None => true | _ => false end)
    (fun s x =>
       match s, x with
       | None, Heard (FeaturesReqExt page _) => Some (Some (page, None))
       | Some (page, None), Looked q f => if q =? page then Some (Some (page, Some f)) else None
       | Some (page, Some f), Sent (FeaturesResExt q g) => if (q =? page) && (g =? f) then Some None else None
       | _, _ => None
       end).

(** ** Messages that no procedure takes *)

(** The packets and the command that are never taken. *)
Definition hopeless (p : packet) : bool := match p with NotAcceptedExt _ _ | Other => true | _ => false end.

Definition Ignoring : machine :=
  Machine unit (fun _ => true) (fun _ => true)
    (fun s x =>
       match x with
       | Took (PinNegative _) => None
       | Heard p => if hopeless p then None else Some s
       | _ => Some s
       end).

(** * Histories without surprises *)

(** Parameters in their ranges, a public key of a known length, the commitment that the simulated
    link managers send, a page of features that exists. *)
Definition acceptable (p : packet) : Prop :=
  match p with
  | IoCapabilityReq x y z | IoCapabilityRes x y z => x <= 3 /\ y <= 3 /\ z <= 5
  | EncapsulatedHeader n => n = 48 \/ n = 64
  | SimplePairingConfirm v => v = repeat 0 16
  | FeaturesReqExt page _ => page <= 2
  | _ => True
  end.

(** The pieces of public keys that arrive. *)
Fixpoint payloads (h : list (env * op)) : list (list N) :=
  match h with
  | [] => []
  | (_, IngestLmp _ (EncapsulatedPayload d)) :: h => d :: payloads h
  | _ :: h => payloads h
  end.

(** Every key drawn is a valid one, and has a shared secret with what arrives. *)
Definition keys_work (rng : nat -> list N) (pieces : list (list N)) : Prop :=
  forall n c, exists private public,
    generate c (firstn (key_size c) (rng n)) = Some private /\ derive c private = Some public /\
    forall l, incl l pieces -> List.length l = 3%nat \/ List.length l = 4%nat -> shared_secret c private (concat l) <> None.

(** What a call may be, after a history [h] that made the events [l]: the host waits for the
    answer to its last command on a link, links are added as long as there are fewer than seven
    and removed only if they exist. *)
Definition considerate (h : list (env * op)) (l : list entry) (e : env) (o : op) : Prop :=
  (forall page, page <= 2 -> features e page <> None) /\
  match o with
  | IngestHci c =>
      (forall a, c <> OobExtendedReply a) /\
      (forall a, target e c = Some a -> In a (linked h []) -> given a h = answered a l)
  | IngestLmp _ p => acceptable p
  | AddLink _ => (List.length (linked h []) < 7)%nat
  | RemoveLink a => In a (linked h [])
  | Tick => True
  | Reset => False
  end.

Definition peaceful (rng : nat -> list N) (n : nat) (h : list (env * op)) : Prop :=
  orderly [] h /\ keys_work rng (payloads h) /\
  forall h1 e o h2 m l, h = h1 ++ (e, o) :: h2 -> run rng (new_manager n) h1 = Ok (m, l) -> considerate h1 l e o.
