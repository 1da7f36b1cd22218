(** Model of the HCI front end of the controller.
    Source: model/controller/dual_mode_controller.cc (DM below).
    The BR/EDR and LE controllers behind the front end are an oracle ([inner]):
    for each command it gives the status and the return parameters, the other
    events raised on the way, and its next state, or says that the controller
    aborts. That the oracle cannot itself raise a Command Complete or Command
    Status event is a fact about bredr_controller.cc and le_controller.cc: neither
    file builds one. *)
From Verif Require Import Prelude HciTables.
Open Scope N_scope.

(** ** Packets *)

Definition take (n : N) (b : list N) : list N := firstn (N.to_nat n) b.
Definition drop (n : N) (b : list N) : list N := skipn (N.to_nat n) b.

Definition le16 (b : list N) : N := nth 0 b 0 + 256 * nth 1 b 0.
Definition bytes16 (n : N) : list N := [n mod 256; n / 256].

(** What a generated packet view leaves unread after the fields of [l], [None]
    when a field does not fit. *)
Fixpoint read (l : list item) (b : list N) : option (list N) :=
  match l with
  | [] => Some b
  | Fix n :: l' => if lenN b <? n then None else read l' (drop n b)
  | Cnt n :: l' =>
      match b with
      | [] => None
      | c :: b' => if lenN b' <? c * n then None else read l' (drop (c * n) b')
      end
  | Siz :: l' =>
      match b with
      | [] => None
      | c :: b' => if lenN b' <? c then None else read l' (drop c b')
      end
  | Wide :: l' =>
      match b with
      | c :: d :: b' => if lenN b' <? le16 [c; d] then None else read l' (drop (le16 [c; d]) b')
      | _ => None
      end
  | Pad n :: l' =>
      match b with
      | [] => None
      | c :: b' => if (lenN b' <? n) || (n <? c) then None else read l' (drop n b')
      end
  | All n :: l' => if lenN b mod n =? 0 then read l' [] else None
  | Any :: l' => read l' []
  end.

(** ** Events and other effects *)

Inductive event :=
| CommandComplete (credits op : N) (parameters : list N)
| CommandStatus (status credits op : N)
| LoopbackCommand (packet : list N)
| HardwareError (code : N)
| VendorSpecific (parameters : list N)
| NumberOfCompletedPackets (handle count : N)
| ConnectionComplete (status handle link_type : N)
| Other (code : N) (parameters : list N).

Inductive effect :=
| Event (e : event)
| AclToHost (packet : list N)
| ScoToHost (packet : list N)
| AclToBredr (packet : list N)   (** BrEdrController::HandleAcl *)
| AclToLe (packet : list N)      (** LeController::HandleAcl *)
| ScoToBredr (packet : list N)   (** BrEdrController::SendScoToRemote *)
| ToLinkManager (packet : list N)
| ToLinkLayer (packet : list N)
| InvalidPacket (packet : list N) (** the registered invalid packet handler runs *)
| Later (e : event)              (** the event is sent 5 ms later *)
| AclLater (packet : list N).

(** ** Configuration and state *)

Record config := {
  strict : bool;                (** properties_.strict *)
  commands : list N;            (** properties_.supported_commands *)
  error_before_reset : bool;    (** properties_.quirks.hardware_error_before_reset *)
  has_csr : bool;               (** properties_.supports_csr_vendor_command *)
  has_capabilities : bool;      (** supports_le_get_vendor_capabilities_command *)
  has_apcf : bool;              (** properties_.supports_le_apcf_vendor_command *)
  codes : N;                    (** properties_.num_supported_iac *)
  name : list N;                (** the local name given by hci_device.cc:34 *)
  tolerant : bool               (** an invalid packet handler was registered (DM:265-270) *)
}.

(** error codes of PDL *)
Definition SUCCESS : N := 0.
Definition UNKNOWN_HCI_COMMAND : N := 1.
Definition UNKNOWN_CONNECTION : N := 2.
Definition INVALID_HCI_COMMAND_PARAMETERS : N := 18.

(** operation codes of PDL tested by HandleCommand *)
Definition RESET : N := 0x0c03.
Definition SET_CONTROLLER_TO_HOST_FLOW_CONTROL : N := 0x0c31.
Definition HOST_BUFFER_SIZE : N := 0x0c33.
Definition HOST_NUMBER_OF_COMPLETED_PACKETS : N := 0x0c35.
Definition READ_LOCAL_SUPPORTED_COMMANDS : N := 0x1002.
Definition READ_BUFFER_SIZE : N := 0x1005.
Definition READ_LOOPBACK_MODE : N := 0x1801.
Definition WRITE_LOOPBACK_MODE : N := 0x1802.

(** LoopbackMode::ENABLE_LOCAL *)
Definition ENABLE_LOCAL : N := 1.

(** kNumCommandPackets, DM:52 *)
Definition kNumCommandPackets : N := 1.

(** SupportedCommands(), controller_properties.cc:466-472: the mask with the bits of
    the listed positions. *)
Definition mask_of (l : list N) : list N :=
  map (fun octet => fold_right N.lor 0 (map (fun i => 2 ^ (i mod 10)) (filter (fun i => i / 10 =? N.of_nat octet) l)))
    (seq 0 64).

Section Model.

Variable W : Type.

Record answer := { status : N; returned : list N; raised : list (N * list N); next : W }.

(** The BR/EDR and LE controllers; [None] when they abort. *)
Variable inner : N -> list N -> W -> option answer.
(** The LE supported features and the key generator also live there. *)

(** Whether a generated view rejects bytes left over after its last field: the
    packet compiler is not part of the repository, so both are covered. *)
Variable exact : bool.

Record state := {
  mode : N;             (** loopback_mode_ *)
  was_reset : bool;     (** controller_reset_ *)
  kept : setting -> list N;  (** the settings, as the bytes a read returns *)
  world : W
}.

Inductive result :=
| Done (s : state) (l : list effect)
| Abort (l : list effect)      (** FATAL or ASSERT, after sending [l] *)
| Undefined.                   (** access outside of an array *)

(** A view over [b] with the fields [l] is valid. *)
Definition fits (l : list item) (b : list N) : bool :=
  match read l b with
  | None => false
  | Some r => if exact then lenN r =? 0 else true
  end.

(** CommandView: operation code and parameters (PDL:768-772) *)
Definition parse (p : list N) : option (N * list N) :=
  match p with
  | lo :: hi :: n :: rest =>
      if lenN rest <? n then None
      else if exact && (n <? lenN rest) then None
      else Some (le16 [lo; hi], take n rest)
  | _ => None
  end.

(** CheckPacketView, dual_mode_controller.h:601-614; without a registered handler
    the default one is fatal (DM:112-115). The bytes handed to the handler are those
    of the view; the model gives the whole packet *)
Definition invalid (c : config) (s : state) (p : list N) : result :=
  if tolerant c then Done s [Event (HardwareError 0x43); InvalidPacket p]
  else Abort [Event (HardwareError 0x43)].

Definition complete (op : N) (l : list N) : effect :=
  Event (CommandComplete kNumCommandPackets op l).
Definition reported (op status : N) : effect :=
  Event (CommandStatus status kNumCommandPackets op).
(** SendCommandCompleteUnknownOpCodeEvent, DM:99-104 *)
Definition unknown (op : N) : effect := complete op [UNKNOWN_HCI_COMMAND].

Definition with_world (s : state) (w : W) : state :=
  {| mode := mode s; was_reset := was_reset s; kept := kept s; world := w |}.

Definition with_mode (s : state) (m : N) : state :=
  {| mode := m; was_reset := was_reset s; kept := kept s; world := world s |}.

Definition ask (s : state) (op : N) (b : list N) (f : answer -> list effect) : result :=
  match inner op b (world s) with
  | None => Abort []
  | Some a => Done (with_world s (next a)) (map (fun e => Event (Other (fst e) (snd e))) (raised a) ++ f a)
  end.

(** ** Settings *)

Definition setting_eqb (x y : setting) : bool :=
  match x, y with
  | PageTimeout, PageTimeout | AcceptTimeout, AcceptTimeout | ClassOfDevice, ClassOfDevice
  | VoiceSetting, VoiceSetting | AuthenticationEnable, AuthenticationEnable | ScanEnable, ScanEnable
  | LocalName, LocalName | InquiryCodes, InquiryCodes | LinkPolicy, LinkPolicy
  | FlowControl, FlowControl | DataLength, DataLength => true
  | _, _ => false
  end.

Definition store (k : setting -> list N) (x : setting) (v : list N) : setting -> list N :=
  fun y => if setting_eqb x y then v else k y.

(** BrEdrController::Reset (bredr_controller.cc:1085-1115) and LeController::Reset
    (le_controller.cc:6598-6599) *)
Definition after_reset (x : setting) : list N :=
  match x with
  | PageTimeout => bytes16 0x2000
  | AcceptTimeout => bytes16 0x1fa0
  | ClassOfDevice => [0; 0; 0]
  | VoiceSetting => bytes16 0x0060
  | AuthenticationEnable => [0]
  | ScanEnable => [0]
  | LocalName => repeat 0 248
  | InquiryCodes => [1; 0x33; 0x8b; 0x9e]
  | LinkPolicy => bytes16 0
  | FlowControl => [0]
  | DataLength => bytes16 0x001b ++ bytes16 0x0148
  end.

(** The member initialisers, bredr_controller.h:340-386, le_controller.h:753-754,
    and the name set by hci_device.cc:34. *)
Definition at_start (c : config) (x : setting) : list N :=
  match x with
  | LocalName => name c
  | InquiryCodes => [0]
  | _ => after_reset x
  end.

(** The elements of an array of Lap (PDL:995-999): parsing stops at the first one
    whose fixed field is wrong; the two reserved bits are dropped. *)
Fixpoint laps (fuel : nat) (b : list N) : list (list N) :=
  match fuel, b with
  | S f, l :: 0x8b :: 0x9e :: b' => [l mod 64; 0x8b; 0x9e] :: laps f b'
  | _, _ => []
  end.

(** The setters: bredr_controller.cc:2278, bredr_controller.h:309-319,
    bredr_controller.cc:1124-1144, 2101-2109 and 1027-1034, DM:1408-1417 and
    DM:2324-2340. [None] when the value is refused. *)
Definition accepted (c : config) (x : setting) (b : list N) : option (list N) :=
  match x with
  | PageTimeout | AcceptTimeout => Some (take 2 b)
  | ClassOfDevice => Some (take 3 b)
  | VoiceSetting => Some (bytes16 (le16 b mod 1024))
  | AuthenticationEnable => Some (take 1 b)
  | ScanEnable => Some [if nth 0 b 0 <? 4 then nth 0 b 0 else 0]
  | LocalName => Some (take 248 b)
  | InquiryCodes =>
      let l := firstn (N.to_nat (codes c)) (laps (N.to_nat (nth 0 b 0)) (drop 1 b)) in
      Some (lenN l :: concat l)
  | LinkPolicy => if 7 <? le16 b then None else Some (bytes16 (le16 b))
  | FlowControl => Some [if nth 0 b 0 =? 1 then 1 else 0]
  | DataLength =>
      let octets := le16 b in
      let time := le16 (drop 2 b) in
      if (0xfb <? octets) || (octets <? 0x1b) || (time <? 0x148) || (0x4290 <? time) then None
      else Some (bytes16 octets ++ bytes16 time)
  end.

(** ** The handlers with a behaviour of their own *)

(** connection_handle.h:41-90 *)
Definition is_acl (h : N) : bool := h <=? 0x0ff.
Definition is_sco (h : N) : bool := (0x100 <=? h) && (h <=? 0x1ff).
Definition is_le_acl (h : N) : bool := (0x200 <=? h) && (h <=? 0x2ff).
Definition is_cis (h : N) : bool := (0xe00 <=? h) && (h <=? 0xeff).

(** LeApcf, DM:2846-3099. Layout of each sub-command, sub-operation code
    included (PDL); [None]: unknown. *)
Definition apcf_layout (sub : N) : option (list item) :=
  if sub =? 0 then Some [Fix 2]
  else if (sub =? 1) || (sub =? 2) then Some [Fix 2; Any]
  else if (3 <=? sub) && (sub <=? 8) then Some [Fix 3; All 1]
  else if sub =? 9 then Some [Fix 4; Siz; All 1]
  else if sub =? 255 then Some [Fix 1]
  else None.

(** The nested views for Set Filtering Parameters (DM:2880-2923) and Broadcaster
    Address (DM:2940-2980), whose validity is not checked before their getters
    run; [true] when a getter would assert. *)
Definition apcf_asserts (b : list N) : bool :=
  let sub := nth 0 b 0 in
  let action := nth 1 b 0 in
  let tail := drop 2 b in
  if sub =? 1 then
    if action =? 0 then negb (fits [Fix 16] tail)
    else if action =? 1 then negb (fits [Fix 1] tail)
    else false
  else if sub =? 2 then
    if (action =? 0) || (action =? 1) then negb (fits [Fix 8] tail)
    else if action =? 2 then negb (fits [Fix 1] tail)
    else false
  else false.

Definition apcf (c : config) (s : state) (op : N) (b p : list N) : result :=
  let sub := nth 0 b 0 in
  match apcf_layout sub with
  | None =>
      let l := [complete op [INVALID_HCI_COMMAND_PARAMETERS; sub]] in
      if tolerant c then Done s (l ++ [InvalidPacket p]) else Abort l
  | Some y =>
      if negb (fits y b) then invalid c s p
      else if apcf_asserts b then Abort []
      else ask s op b (fun a => [complete op (status a :: sub :: returned a)])
  end.

(** CsrVendorCommand, DM:3126-3222, and the accesses DM:3225-3285; vendor_commands/csr.h. *)
Definition CSR_VARID_BUILDID : N := 0x2819.
Definition CSR_VARID_PS : N := 0x7003.
Definition CSR_PSKEY_ENC_KEY_LMIN : N := 0x00da.
Definition CSR_PSKEY_ENC_KEY_LMAX : N := 0x00db.
Definition CSR_PSKEY_LOCAL_SUPPORTED_FEATURES : N := 0x00ef.
Definition CSR_PSKEY_HCI_LMP_LOCAL_VERSION : N := 0x010d.

Definition word (b : list N) (i : N) : N := le16 (drop i b).

(** What replaces the value of a read, [None] when the size is asserted to be
    larger. *)
Definition csr_read_varid (varid size : N) : option (list N) :=
  if varid =? CSR_VARID_BUILDID then if size <? 2 then None else Some [0xe8; 0x30]
  else Some [].

Definition csr_read_pskey (key size : N) : option (list N) :=
  if key =? CSR_PSKEY_ENC_KEY_LMIN then if size =? 0 then None else Some [7]
  else if key =? CSR_PSKEY_ENC_KEY_LMAX then if size =? 0 then None else Some [16]
  else if key =? CSR_PSKEY_HCI_LMP_LOCAL_VERSION then if size <? 2 then None else Some [8; 8]
  else Some [].

Definition csr_write_pskey (key size : N) : option (list N) :=
  if key =? CSR_PSKEY_LOCAL_SUPPORTED_FEATURES then if size <? 8 then None else Some []
  else Some [].

Definition overwrite (b : list N) (i : N) (v : list N) : list N :=
  take i b ++ v ++ drop (i + lenN v) b.

(** The parameters after the access, [None] when an assertion fails. The lengths
    are uint16_t: they wrap. *)
Definition csr_access (b : list N) : option (list N) :=
  if negb (nth 0 b 0 =? 0xc2) || (lenN b <? 11) then Some b
  else
    let type := word b 1 in
    let length := (2 * (word b 3 + 65536 - 5)) mod 65536 in
    let varid := word b 7 in
    if (lenN b <? 11 + length) || ((varid =? CSR_VARID_PS) && (length <? 6)) then Some b
    else if varid =? CSR_VARID_PS then
      let key := word b 11 in
      let length := (2 * word b 13) mod 65536 in
      if lenN b <? 17 + length then Some b
      else if type =? 0 then option_map (overwrite b 17) (csr_read_pskey key length)
      else option_map (fun _ => b) (csr_write_pskey key length)
    else if type =? 0 then option_map (overwrite b 11) (csr_read_varid varid length)
    else Some b.

Definition csr (c : config) (s : state) (op : N) (b : list N) : result :=
  if negb (has_csr c) then Done s [unknown op]
  else
    match csr_access b with
    | None => Abort []
    | Some b' =>
        (* parameters[1] = 0x1; parameters[2] = 0x0, DM:3219-3220 *)
        if lenN b' <? 3 then Undefined
        else
          match inner op b (world s) with
          | None => Abort []
          | Some a => Done (with_world s (next a)) [Event (VendorSpecific (overwrite b' 1 [1; 0]))]
          end
    end.

(** IntelDdcConfigRead, DM:3510-3532 *)
Definition intel_read (s : state) (op : N) (b : list N) : result :=
  if negb (lenN b =? 2) then Abort []
  else if le16 b =? 0x0204 then Done s [complete op [SUCCESS; 0x04; 0x02; 0x01; 0x10]]
  else Done s [complete op [INVALID_HCI_COMMAND_PARAMETERS; 0; 0]].

(** IntelDdcConfigWrite, DM:3534-3562: the records are well formed. Setting the LE
    features is left to the oracle. *)
Fixpoint ddc (fuel : nat) (b : list N) : bool :=
  match b with
  | [] => true
  | n :: b' =>
      match fuel with
      | O => false
      | S f => (2 <=? n) && (n <=? lenN b') && ddc f (drop n b')
      end
  end.

Definition intel_write (s : state) (op : N) (b : list N) : result :=
  if negb (ddc (length b) b) then Abort []
  else
    match inner op b (world s) with
    | None => Abort []
    | Some a => Done (with_world s (next a)) [complete op [SUCCESS; 0; 0]]
    end.

(** RootcanalCommand, DM:2756-2801 *)
Definition injects (c : config) (s : state) (op : N) (b p : list N) : result :=
  let sub := nth 0 b 0 in
  let tail := drop 1 b in
  if sub =? 1 then
    if negb (fits [Fix 1; Siz] tail) then invalid c s p
    else Done s [Later (Other (nth 0 tail 0) (take (nth 1 tail 0) (drop 2 tail))); complete op [SUCCESS; sub]]
  else if sub =? 2 then
    if negb (fits [Fix 2; Wide] tail) then invalid c s p
    else Done s [AclLater (take (4 + word tail 2) tail); complete op [SUCCESS; sub]]
  else Done s [complete op [UNKNOWN_HCI_COMMAND; sub]].

(** Does the handler build a view of its own command? ForwardToLm, ForwardToLl
    (DM:125-133), CsrVendorCommand and the two Intel commands do not. *)
Definition checked (k : kind) : bool :=
  match k with
  | ToManager | ToLayer | Csr | IntelRead | IntelWrite => false
  | _ => true
  end.

(** The handlers, at the lines given in HciTables.v. [op] is the operation code
    of the answer. *)
Definition serve (c : config) (s : state) (k : kind) (op : N) (b p : list N) : result :=
  match k with
  | Complete => ask s op b (fun a => [complete op (status a :: returned a)])
  | Status => ask s op b (fun a => [reported op (status a)])
  | Constant l => Done s [complete op (SUCCESS :: l)]
  | Refused => Done s [unknown op]
  | ToManager => Done s [ToLinkManager p]
  | ToLayer => Done s [ToLinkLayer p]
  | Gets x => Done s [complete op (SUCCESS :: kept s x)]
  | Sets x =>
      match accepted c x b with
      | None => Done s [complete op [INVALID_HCI_COMMAND_PARAMETERS]]
      | Some v =>
          match inner op b (world s) with
          | None => Abort []
          | Some a =>
              Done {| mode := mode s; was_reset := was_reset s; kept := store (kept s) x v;
                      world := next a |} [complete op [SUCCESS]]
          end
      end
  | Disconnects => (* DM:2115-2134 *)
      let h := le16 b mod 4096 in
      if is_cis h then Done s [ToLinkLayer p]
      else if is_acl h || is_sco h || is_le_acl h then ask s op b (fun a => [reported op (status a)])
      else Done s [reported op UNKNOWN_CONNECTION]
  | Refreshes => (* DM:1222-1234 *)
      Done s [reported op SUCCESS; Event (Other 0x30 (SUCCESS :: bytes16 (le16 b mod 4096)))]
  | Flushes => (* DM:695-711; whether the event is unmasked is the oracle's status *)
      match inner op b (world s) with
      | None => Abort []
      | Some a =>
          Done (with_world s (next a))
            (reported op SUCCESS ::
             (if status a =? 0 then [Event (Other 0x39 (bytes16 (le16 b mod 4096)))] else []))
      end
  | AsksClock => (* DM:1530-1558 *)
      match inner op b (world s) with
      | None => Abort []
      | Some a =>
          Done (with_world s (next a))
            (if status a =? 0
             then [reported op SUCCESS; Event (Other 0x3e (0x1f :: SUCCESS :: bytes16 (le16 b mod 4096) ++ [0]))]
             else [reported op UNKNOWN_CONNECTION])
      end
  | MakesKey => (* DM:2408-2422 *)
      match inner op b (world s) with
      | None => Abort []
      | Some a =>
          Done (with_world s (next a))
            [reported op SUCCESS; Event (Other 0x3e (0x08 :: status a :: returned a))]
      end
  | Filters => (* DM:1421-1433 *)
      if nth 0 b 0 =? 0 then Done s [complete op [SUCCESS]] else Abort []
  | SetsLoop => (* DM:3487-3507; link types ACL 1 and SCO 0 *)
      Done (with_mode s (nth 0 b 0))
        [Event (ConnectionComplete SUCCESS 0x123 1); Event (ConnectionComplete SUCCESS 0x345 0);
         complete op [SUCCESS]]
  | GetsLoop => Done s [complete op [SUCCESS; mode s]]
  | Resets => (* DM:319-330 *)
      match inner op b (world s) with
      | None => Abort []
      | Some a =>
          Done {| mode := 0; was_reset := true; kept := after_reset; world := next a |}
            [complete op [SUCCESS]]
      end
  | GetsFeatures => (* DM:498-509; lmp_features has three elements *)
      if 3 <=? nth 0 b 0 then Undefined
      else ask s op b (fun a => [complete op (SUCCESS :: nth 0 b 0 :: returned a)])
  | GetsCommands => Done s [complete op (SUCCESS :: commands c)]
  | Injects => injects c s op b p
  | Apcf => if negb (has_apcf c) then Done s [unknown op] else apcf c s op b p
  | Csr => csr c s op b
  | IntelRead => intel_read s op b
  | IntelWrite => intel_write s op b
  | Capabilities => (* DM:2803-2838 *)
      if negb (has_capabilities c) then Done s [unknown op]
      else ask s op b (fun a => [complete op (SUCCESS :: returned a)])
  end.

(** ** Dispatch *)

Fixpoint assoc {A} (l : list (N * A)) (k : N) : option A :=
  match l with
  | [] => None
  | (x, v) :: l' => if x =? k then Some v else assoc l' k
  end.

Definition is_vendor (op : N) : bool := N.shiftr op 10 =? 0x3f.

(** supported_commands[index / 10] & (1 << (index % 10)), DM:215-216 *)
Definition masked (mask : list N) (index : N) : bool :=
  N.testbit (nth (N.to_nat (index / 10)) mask 0) (index mod 10).

(** DM:207-217 *)
Definition supported (c : config) (op : N) : bool :=
  if (op =? READ_LOCAL_SUPPORTED_COMMANDS) ||
     (is_vendor op && match assoc handlers op with Some _ => true | None => false end)
  then true
  else match assoc known op with Some i => masked (commands c) i | None => false end.

(** DM:220-225 *)
Definition looped (s : state) (op : N) : bool :=
  (mode s =? ENABLE_LOCAL) &&
  negb (existsb (N.eqb op)
          [RESET; SET_CONTROLLER_TO_HOST_FLOW_CONTROL; HOST_BUFFER_SIZE;
           HOST_NUMBER_OF_COMPLETED_PACKETS; READ_BUFFER_SIZE; READ_LOOPBACK_MODE;
           WRITE_LOOPBACK_MODE]).

(** HandleCommand, DM:199-262 *)
Definition command (c : config) (s : state) (p : list N) : result :=
  match parse p with
  | None => invalid c s p
  | Some (op, b) =>
      if looped s op then Done s [Event (LoopbackCommand p)]
      else if error_before_reset c && negb (was_reset s) && negb (op =? RESET)
      then Done s [Event (HardwareError 0x42)]
      else
        match supported c op, assoc handlers op with
        | true, Some r =>
            if checked (does r) && negb ((op =? view r) && fits (layout r) b) then invalid c s p
            else serve c s (does r) (reply r) b p
        | true, None => if strict c then Abort [] else Done s [unknown op]
        | false, _ => Done s [unknown op]
        end
  end.

(** ** Data packets *)

(** AclView and AclBuilder, PDL:23-29 *)
Definition acl_parse (p : list N) : option (N * N * N * list N) :=
  match p with
  | lo :: hi :: n :: m :: rest =>
      let size := le16 [n; m] in
      if lenN rest <? size then None
      else if exact && (size <? lenN rest) then None
      else
        let h := le16 [lo; hi] in
        Some (h mod 4096, (h / 4096) mod 4, h / 16384, take size rest)
  | _ => None
  end.

Definition acl_build (handle boundary broadcast : N) (data : list N) : list N :=
  bytes16 (handle + 4096 * boundary + 16384 * broadcast) ++ bytes16 (lenN data) ++ data.

(** ScoView and ScoBuilder, PDL:40-46: the two reserved bits are written as zero *)
Definition sco_parse (p : list N) : option (N * N * list N) :=
  match p with
  | lo :: hi :: n :: rest =>
      if lenN rest <? n then None
      else if exact && (n <? lenN rest) then None
      else
        let h := le16 [lo; hi] in
        Some (h mod 4096, (h / 4096) mod 4, take n rest)
  | _ => None
  end.

Definition sco_build (handle flag : N) (data : list N) : list N :=
  bytes16 (handle + 4096 * flag) ++ lenN data :: data.

(** HandleAcl, DM:135-165 *)
Definition acl_data (c : config) (s : state) (p : list N) : result :=
  match acl_parse p with
  | None => invalid c s p
  | Some (h, pb, bc, data) =>
      if mode s =? ENABLE_LOCAL
      then Done s [AclToHost (acl_build h pb bc data); Event (NumberOfCompletedPackets h 1)]
      else if is_acl h then Done s [AclToBredr p]
      else if is_le_acl h then Done s [AclToLe p]
      else Done s [Event (NumberOfCompletedPackets h 1)]
  end.

(** HandleSco, DM:169-191 *)
Definition sco_data (c : config) (s : state) (p : list N) : result :=
  match sco_parse p with
  | None => invalid c s p
  | Some (h, f, data) =>
      if mode s =? ENABLE_LOCAL
      then
        Done s (ScoToHost (sco_build h f data) ::
                (if list_eqb (kept s FlowControl) [1] then [Event (NumberOfCompletedPackets h 1)] else []))
      else Done s [ScoToBredr p]
  end.

(** ** Histories *)

Inductive input :=
| Command (p : list N)
| AclData (p : list N)
| ScoData (p : list N).

Definition step (c : config) (s : state) (i : input) : result :=
  match i with
  | Command p => command c s p
  | AclData p => acl_data c s p
  | ScoData p => sco_data c s p
  end.

(** The packets received and what each of them caused, as long as the controller
    lives. *)
Inductive ran (c : config) : state -> list (input * list effect) -> state -> Prop :=
| ran_nil s : ran c s [] s
| ran_cons s i l s' h t : step c s i = Done s' l -> ran c s' h t -> ran c s ((i, l) :: h) t.

Definition start (c : config) (w : W) : state :=
  {| mode := 0; was_reset := false; kept := at_start c; world := w |}.

End Model.
