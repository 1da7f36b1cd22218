(** Model of channel sounding on one LE connection, and of the two controllers at its ends
    (model/controller/le_controller.cc:2311-3930 and le_cs_parameters.h).

    Simplifications: the packets sent by one end reach the other in order; events scheduled
    without delay are shown at once, and none is masked except where [unmasked] says so; the
    feature bit of the host cannot change while a connection exists (le_controller.cc:686)
    and is a setting; the capabilities that no code checks, the key material and the fields
    of the start procedure other than the configuration and the subevent length are left out. *)
From Verif Require Import Prelude Table.
Open Scope N_scope.

(** controller_properties.h, CsLocalSupportedCapabilities *)
Record caps := Caps {
  num_config : N; num_antennae : N; roles : N; modes : N; rtt_aa : N; rtt_sounding : N; rtt_random : N; sync_phys : N; subfeatures : N }.

(** le_cs_parameters.h:56-72 *)
Record body := Body {
  channel_map : list N; map_repetition : N; main_mode : N; sub_mode : N; min_steps : N; max_steps : N; repetition : N; mode_0_steps : N;
  sync_phy : N; rtt_type : N; role : N; selection : N; shape : N; jump : N }.
(** le_cs_parameters.h:41-54 *)
Record procedure := Procedure { p_len : N; p_min_interval : N; p_max_interval : N; p_count : N; p_min_sub : N; p_max_sub : N; p_tone : N; p_phy : N }.
(** le_cs_parameters.h:72-73 *)
Record config := Config { the_body : body; enabled : bool; params : option procedure }.

(** One end: the settings of the controller, the connection (le_acl_connection.h) and its
    parameters (le_cs_parameters.h:76-87); [keyed] tells that [iv] is not zero,
    [last_map] the time of the latest LE CS Set Channel Classification. *)
Record endpoint := Endpoint {
  central : bool; host_support : bool; local : caps; remote_feature : option bool;
  encrypted : bool;
  remote : option caps; fae : option (list N); role_enable : N;
  configs : table config; secured : bool; keyed : bool; last_map : option N }.

Definition with_encrypted (e : endpoint) : endpoint :=
  Endpoint (central e) (host_support e) (local e) (remote_feature e) true (remote e) (fae e) (role_enable e) (configs e) (secured e) (keyed e) (last_map e).
Definition with_remote r (e : endpoint) : endpoint :=
  Endpoint (central e) (host_support e) (local e) (remote_feature e) (encrypted e) r (fae e) (role_enable e) (configs e) (secured e) (keyed e) (last_map e).
Definition with_fae f (e : endpoint) : endpoint :=
  Endpoint (central e) (host_support e) (local e) (remote_feature e) (encrypted e) (remote e) f (role_enable e) (configs e) (secured e) (keyed e) (last_map e).
Definition with_role_enable r (e : endpoint) : endpoint :=
  Endpoint (central e) (host_support e) (local e) (remote_feature e) (encrypted e) (remote e) (fae e) r (configs e) (secured e) (keyed e) (last_map e).
Definition with_configs c (e : endpoint) : endpoint :=
  Endpoint (central e) (host_support e) (local e) (remote_feature e) (encrypted e) (remote e) (fae e) (role_enable e) c (secured e) (keyed e) (last_map e).
Definition with_secured (e : endpoint) : endpoint :=
  Endpoint (central e) (host_support e) (local e) (remote_feature e) (encrypted e) (remote e) (fae e) (role_enable e) (configs e) true (keyed e) (last_map e).
Definition with_keyed (e : endpoint) : endpoint :=
  Endpoint (central e) (host_support e) (local e) (remote_feature e) (encrypted e) (remote e) (fae e) (role_enable e) (configs e) (secured e) true (last_map e).
Definition with_last_map t (e : endpoint) : endpoint :=
  Endpoint (central e) (host_support e) (local e) (remote_feature e) (encrypted e) (remote e) (fae e) (role_enable e) (configs e) (secured e) (keyed e) (Some t).

(** hci_packets.pdl, ErrorCode *)
Definition SUCCESS : N := 0.
Definition PIN_OR_KEY_MISSING : N := 0x06.
Definition COMMAND_DISALLOWED : N := 0x0c.
Definition LIMITED_RESOURCES : N := 0x0d.
Definition UNSUPPORTED_FEATURE_OR_PARAMETER_VALUE : N := 0x11.
Definition INVALID_HCI_COMMAND_PARAMETERS : N := 0x12.
Definition UNSUPPORTED_REMOTE_OR_LMP_FEATURE : N := 0x1a.
Definition INVALID_LMP_OR_LL_PARAMETERS : N := 0x1e.
Definition UNSUPPORTED_LMP_OR_LL_PARAMETER : N := 0x20.
Definition INSUFFICIENT_SECURITY : N := 0x2f.

(** packets/link_layer_packets.pdl:417-603 *)
Inductive pdu :=
| CapReq (c : caps)
| CapRsp (status : N) (c : caps)
| FaeReq
| FaeRsp (status : N) (t : list N)
| ConfigReq (id action : N) (b : body)
| ConfigRsp (status id : N)
| SecReq
| SecRsp (status : N)
| CsReq (id subevent_len : N)
| CsRsp (status id subevent_len : N)
| CsInd (status id subevent_len : N)
| TermReq (id error : N)
| TermRsp (id error : N)
| MapInd (map : list N).

Inductive event :=
| CapabilitiesComplete (status : N) (c : caps)
| FaeComplete (status : N) (t : list N)
| ConfigComplete (status id action : N) (b : body)
| SecurityComplete (status : N)
| ProcedureComplete (status id : N) (on : bool).

Inductive command :=
| ReadRemoteCapabilities
| SetDefaultSettings (roles antenna : N)
| ReadFae
| WriteFae (t : list N)
| WriteCapabilities (c : caps)
| CreateConfig (id context : N) (b : body) (reserved : N)
| SetClassification (map : list N)
| RemoveConfig (id : N)
| SecurityEnable
| SetProcedure (id : N) (p : procedure)
| ProcedureEnable (id : N) (on : bool).

Definition nonzero (n : N) : bool := negb (n =? 0).

(** __builtin_popcount of a byte *)
Definition popcount (b : N) : N := fold_left (fun n i => n + N.b2n (N.testbit b i)) [0; 1; 2; 3; 4; 5; 6; 7] 0.
(** 2645-2669 and 2880-2895: [None] for a reserved channel *)
Definition count_channels (reserved map : list N) : option N :=
  fold_left (fun n e => match n with None => None | Some n => if nonzero (N.land (fst e) (snd e)) then None else Some (n + popcount (fst e)) end) (combine map reserved) (Some 0).
(** 2645-2653 *)
Definition create_reserved : list N := [3; 0; 128; 3; 0; 0; 0; 0; 0; 96].
(** 2880-2881 *)
Definition classification_reserved : list N := [3; 0; 128; 3; 0; 0; 0; 0; 0; 224].
Definition map_ok (reserved map : list N) : bool := match count_channels reserved map with Some n => 15 <=? n | None => false end.

(** 2589-2698: the checks that do not depend on the controllers *)
Definition body_ok (id context reserved : N) (b : body) : bool :=
  negb (3 <? id) && ((context =? 0) || (context =? 1)) &&
  ((main_mode b =? 1) || (main_mode b =? 2) || (main_mode b =? 3)) &&
  ((sub_mode b =? 255) || (sub_mode b =? 1) || (sub_mode b =? 2) || (sub_mode b =? 3)) &&
  negb (3 <? repetition b) && negb ((mode_0_steps b <? 1) || (3 <? mode_0_steps b)) && negb (map_repetition b <? 1) &&
  (if selection b =? 1 then ((shape b =? 0) || (shape b =? 1)) && negb ((jump b <? 2) || (8 <? jump b)) else true) &&
  (if sub_mode b =? 255 then true else negb ((min_steps b <? 1) || (max_steps b <? 1) || (max_steps b <? min_steps b))) &&
  map_ok create_reserved (channel_map b) &&
  ((sub_mode b =? 255) || ((main_mode b =? 2) && (sub_mode b =? 1)) || ((main_mode b =? 2) && (sub_mode b =? 3)) || ((main_mode b =? 3) && (sub_mode b =? 2))) &&
  (reserved =? 0).

(** 2771-2795, 3419-3436 *)
Definition rtt_supported (c : caps) (t : N) : bool :=
  if t =? 0 then nonzero (rtt_aa c) else if (t =? 1) || (t =? 2) then nonzero (rtt_sounding c) else if (3 <=? t) && (t <=? 6) then nonzero (rtt_random c) else false.
(** 2797-2818, 3446-3461 *)
Definition phy_supported (c : caps) (p : N) : bool :=
  if p =? 1 then true else if p =? 2 then nonzero (N.land (sync_phys c) 2) else if p =? 3 then nonzero (N.land (sync_phys c) 4) else false.
(** 2733-2760 *)
Definition mode_supported (c : caps) (m : N) : bool := if m =? 3 then nonzero (N.land (modes c) 1) else true.

(** 2704-2823 *)
Definition capable (loc rem : caps) (id : N) (b : body) : bool :=
  negb ((num_config loc <=? id) || (num_config rem <=? id)) &&
  nonzero (N.land (roles loc) (N.shiftl 1 (role b))) && nonzero (N.land (roles rem) (if role b =? 0 then 2 else 1)) &&
  mode_supported loc (main_mode b) && mode_supported rem (main_mode b) && mode_supported loc (sub_mode b) && mode_supported rem (sub_mode b) &&
  rtt_supported loc (rtt_type b) && rtt_supported rem (rtt_type b) && phy_supported loc (sync_phy b) && phy_supported rem (sync_phy b) && (selection b =? 1).

(** 3378-3507: the checks of a configuration request *)
Definition request_ok (loc : caps) (b : body) : bool :=
  nonzero (N.land (roles loc) (if role b =? 1 then 2 else 1)) && ((main_mode b =? 1) && nonzero (N.land (modes loc) 1)) &&
  ((sub_mode b =? 255) || (sub_mode b =? 2)) && rtt_supported loc (rtt_type b) && phy_supported loc (sync_phy b) && (selection b =? 1) &&
  ((shape b =? 0) || (shape b =? 1)) && ((2 <=? jump b) && (jump b <=? 8)).
(** 3510, 3524: the configuration with the other role *)
Definition mirrored (b : body) : body :=
  Body (channel_map b) (map_repetition b) (main_mode b) (sub_mode b) (min_steps b) (max_steps b) (repetition b) (mode_0_steps b)
    (sync_phy b) (rtt_type b) (if role b =? 0 then 1 else 0) (selection b) (shape b) (jump b).
(** 2939-2946 *)
Definition removal : body := Body (repeat 0 10) 0 1 255 0 0 0 0 1 0 0 0 0 0.
Definition set_map (m : list N) (c : config) : config :=
  let b := the_body c in
  Config (Body m (map_repetition b) (main_mode b) (sub_mode b) (min_steps b) (max_steps b) (repetition b) (mode_0_steps b)
    (sync_phy b) (rtt_type b) (role b) (selection b) (shape b) (jump b)) (enabled c) (params c).

(** 3005-3093 *)
Definition procedure_status (loc : caps) (p : procedure) : N :=
  if (p_min_sub p <? 1250) || (3999999 <? p_min_sub p) || (p_max_sub p <? 1250) || (3999999 <? p_max_sub p) || (p_max_sub p <? p_min_sub p) then LIMITED_RESOURCES
  else if num_antennae loc <=? p_tone p then LIMITED_RESOURCES
  else if (p_phy p =? 1) || ((p_phy p =? 2) && nonzero (N.land (sync_phys loc) 4)) || ((p_phy p =? 3) && nonzero (N.land (sync_phys loc) 8)) then SUCCESS
  else LIMITED_RESOURCES.

Definition outcome : Type := endpoint * N * list pdu * list event.
Definition refuse (e : endpoint) (status : N) : outcome := (e, status, [], []).

(** A command at time [now], in microseconds *)
Definition do_command (now : N) (e : endpoint) (c : command) : outcome :=
  match c with
  (** 2311-2354 *)
  | ReadRemoteCapabilities =>
      if negb (host_support e) || (match remote_feature e with Some f => negb f | None => false end) then refuse e COMMAND_DISALLOWED
      else match remote e with
           | Some r => (e, SUCCESS, [], [CapabilitiesComplete SUCCESS r])
           | None => (e, SUCCESS, [CapReq (local e)], [])
           end
  (** 2356-2405 *)
  | SetDefaultSettings r antenna =>
      if (r =? 0) && negb (match configs e with [] => true | _ => false end) then refuse e INVALID_HCI_COMMAND_PARAMETERS
      else if nonzero (N.ldiff r (roles (local e))) then refuse e UNSUPPORTED_FEATURE_OR_PARAMETER_VALUE
      else if (1 <=? antenna) && (antenna <=? 4) && negb (num_antennae (local e) <? antenna) || (0xfd <=? antenna) && (antenna <=? 0xff)
      then (with_role_enable r e, SUCCESS, [], [])
      else refuse e UNSUPPORTED_FEATURE_OR_PARAMETER_VALUE
  (** 2407-2449 *)
  | ReadFae =>
      if negb (host_support e) then refuse e COMMAND_DISALLOWED
      else if (match remote e with Some r => nonzero (N.land (subfeatures r) 2) | None => false end) then refuse e UNSUPPORTED_FEATURE_OR_PARAMETER_VALUE
      else match fae e with
           | Some t => (e, SUCCESS, [], [FaeComplete SUCCESS t])
           | None => (e, SUCCESS, [FaeReq], [])
           end
  (** 2451-2487 *)
  | WriteFae t =>
      if (match remote e with Some r => nonzero (N.land (subfeatures r) 2) | None => false end) then refuse e UNSUPPORTED_FEATURE_OR_PARAMETER_VALUE
      else match fae e, configs e with
           | None, [] => (with_fae (Some t) e, SUCCESS, [], [])
           | _, _ => refuse e COMMAND_DISALLOWED
           end
  (** 2489-2551 *)
  | WriteCapabilities c =>
      if negb (host_support e) then refuse e COMMAND_DISALLOWED
      else match remote e, configs e with
           | None, [] => (with_remote (Some c) e, SUCCESS, [], [])
           | _, _ => refuse e COMMAND_DISALLOWED
           end
  (** 2553-2869 *)
  | CreateConfig id context b reserved =>
      match remote e with
      | None => refuse e COMMAND_DISALLOWED
      | Some r =>
          if negb (nonzero (N.land (role_enable e) (if role b =? 0 then 1 else 2))) then refuse e INVALID_HCI_COMMAND_PARAMETERS
          else if negb (body_ok id context reserved b) then refuse e INVALID_HCI_COMMAND_PARAMETERS
          else if negb (capable (local e) r id b) then refuse e UNSUPPORTED_FEATURE_OR_PARAMETER_VALUE
          else
            let e := with_configs (put (configs e) id (Config b false None)) e in
            if context =? 1 then (e, SUCCESS, [ConfigReq id 1 b], []) else (e, SUCCESS, [], [ConfigComplete SUCCESS id 1 b])
      end
  (** 2871-2914 *)
  | SetClassification map =>
      if (match last_map e with Some t => now <? t + 1000000 | None => false end) then refuse e COMMAND_DISALLOWED
      else if negb (map_ok classification_reserved map) then refuse e INVALID_HCI_COMMAND_PARAMETERS
      else (with_configs (List.map (fun x => (fst x, set_map map (snd x))) (configs e)) (with_last_map now e), SUCCESS, [MapInd map], [])
  (** 2916-2951 *)
  | RemoveConfig id =>
      match lookup (configs e) id with
      | None => refuse e INVALID_HCI_COMMAND_PARAMETERS
      | Some _ => (with_configs (erase (configs e) id) e, SUCCESS, [ConfigReq id 0 removal], [])
      end
  (** 2953-2992 *)
  | SecurityEnable =>
      if negb (central e) then refuse e COMMAND_DISALLOWED
      else if negb (encrypted e) then refuse e INSUFFICIENT_SECURITY
      else if negb (host_support e) then refuse e COMMAND_DISALLOWED
      else (with_keyed e, SUCCESS, [SecReq], [])
  (** 2994-3093 *)
  | SetProcedure id p =>
      match lookup (configs e) id with
      | None => refuse e INVALID_HCI_COMMAND_PARAMETERS
      | Some c =>
          if enabled c then refuse e COMMAND_DISALLOWED
          else let status := procedure_status (local e) p in
               if status =? SUCCESS then (with_configs (put (configs e) id (Config (the_body c) (enabled c) (Some p))) e, SUCCESS, [], []) else refuse e status
      end
  (** 3095-3179 *)
  | ProcedureEnable id on =>
      match lookup (configs e) id with
      | None => refuse e INVALID_HCI_COMMAND_PARAMETERS
      | Some c =>
          match params c with
          | None => refuse e COMMAND_DISALLOWED
          | Some p =>
              if enabled c then refuse e COMMAND_DISALLOWED
              else if on then (with_configs (put (configs e) id (Config (the_body c) true (params c))) e, SUCCESS, [CsReq id (p_min_sub p)], [])
              else (with_configs (put (configs e) id (Config (the_body c) false (params c))) e, SUCCESS, [TermReq id SUCCESS], [])
          end
      end
  end.

(** 3775-3789, 3841-3854, 3878-3891: [None] when the value of an absent optional is read *)
Definition procedure_event (unmasked : bool) (e : endpoint) (id : N) : option (list event) :=
  if negb unmasked then Some []
  else match lookup (configs e) id with
       | None => Some []
       | Some c => match params c with None => None | Some _ => Some [ProcedureComplete SUCCESS id true] end
       end.

(** The table of 3323-3326 *)
Definition fae_table : list N := List.map N.of_nat (seq 1 72).

(** A packet arrives; [None] when the controller aborts. [unmasked] is the bit of LE CS
    Procedure Enable Complete in the event mask. *)
Definition do_receive (unmasked : bool) (e : endpoint) (p : pdu) : option (endpoint * list pdu * list event) :=
  match p with
  (** 3181-3240; the no_fae bit that controllers send is 0 (line 83) *)
  | CapReq c =>
      if negb (host_support e) then Some (e, [CapRsp UNSUPPORTED_REMOTE_OR_LMP_FEATURE (local e)], [])
      else Some (with_remote (Some c) e, [CapRsp SUCCESS (local e)], [CapabilitiesComplete SUCCESS c])
  (** 3242-3303 *)
  | CapRsp status c =>
      if nonzero status then Some (e, [], [CapabilitiesComplete status (Caps 0 0 0 0 0 0 0 0 0)])
      else Some (with_remote (Some c) e, [], [CapabilitiesComplete SUCCESS c])
  (** 3305-3330 *)
  | FaeReq => Some (e, [if host_support e then FaeRsp SUCCESS fae_table else FaeRsp UNSUPPORTED_REMOTE_OR_LMP_FEATURE (repeat 0 72)], [])
  (** 3332-3353 *)
  | FaeRsp status t =>
      if nonzero status then Some (e, [], [FaeComplete status (repeat 0 72)]) else Some (with_fae (Some t) e, [], [FaeComplete SUCCESS t])
  (** 3355-3595 *)
  | ConfigReq id action b =>
      if negb (host_support e) then Some (e, [ConfigRsp UNSUPPORTED_REMOTE_OR_LMP_FEATURE 0], [])
      else if negb (request_ok (local e) b) then Some (e, [ConfigRsp UNSUPPORTED_LMP_OR_LL_PARAMETER id], [])
      else
        let e := if action =? 1 then with_configs (put (configs e) id (Config (mirrored b) false None)) e
                 else if action =? 0 then with_configs (erase (configs e) id) e else e in
        Some (e, [ConfigRsp SUCCESS id], [ConfigComplete SUCCESS id (if action =? 1 then 1 else 0) (mirrored b)])
  (** 3597-3646 *)
  | ConfigRsp status id =>
      match lookup (configs e) id with
      | None => Some (e, [], [ConfigComplete status id 0 removal])
      | Some c => Some (if nonzero status then with_configs (erase (configs e) id) e else e, [], [ConfigComplete status id 1 (the_body c)])
      end
  (** 3648-3698 *)
  | SecReq =>
      if negb (encrypted e) then Some (e, [SecRsp INSUFFICIENT_SECURITY], [])
      else if negb (host_support e) then Some (e, [SecRsp UNSUPPORTED_REMOTE_OR_LMP_FEATURE], [])
      else Some (with_secured (with_keyed e), [SecRsp SUCCESS], [SecurityComplete SUCCESS])
  (** 3700-3720 *)
  | SecRsp status => Some (if nonzero status then e else with_secured e, [], [SecurityComplete status])
  (** 3722-3810 *)
  | CsReq id len =>
      if negb (host_support e) then Some (e, [CsRsp UNSUPPORTED_REMOTE_OR_LMP_FEATURE 0 0], [])
      else match lookup (configs e) id with
           | None => Some (e, [CsRsp INVALID_LMP_OR_LL_PARAMETERS 0 0], [])
           | Some _ =>
               if negb (keyed e) then Some (e, [CsRsp PIN_OR_KEY_MISSING id 0], [])
               else match fae e with
                    | None => Some (e, [CsRsp COMMAND_DISALLOWED id 0], [])
                    | Some _ =>
                        if negb (central e) then Some (e, [CsRsp SUCCESS id len], [])
                        else match procedure_event unmasked e id with Some ev => Some (e, [CsInd SUCCESS id len], ev) | None => None end
                    end
           end
  (** 3812-3851 *)
  | CsRsp status id len =>
      if negb (host_support e) then Some (e, [], [])
      else if central e then match procedure_event unmasked e id with Some ev => Some (e, [CsInd SUCCESS id len], ev) | None => None end
      else Some (e, [], [])
  (** 3864-3892 *)
  | CsInd status id len =>
      if negb (host_support e) then Some (e, [], [])
      else if negb (central e) then match procedure_event unmasked e id with Some ev => Some (e, [], ev) | None => None end
      else Some (e, [], [])
  (** 3894-3920 *)
  | TermReq id error =>
      let error := if has (configs e) id then error else COMMAND_DISALLOWED in
      Some (e, [TermRsp id error], if unmasked then [ProcedureComplete error id false] else [])
  (** 3922-3936 *)
  | TermRsp id error => Some (e, [], if unmasked then [ProcedureComplete error id false] else [])
  (** 3853-3862 *)
  | MapInd map => Some (with_configs (List.map (fun x => (fst x, if enabled (snd x) then set_map map (snd x) else snd x)) (configs e)) e, [], [])
  end.

(** The two ends, and the packets on their way to each *)
Record system := System { cen : endpoint; per : endpoint; to_per : list pdu; to_cen : list pdu }.
Inductive side := Central | Peripheral.
(** A host's command, the delivery of a packet, or the end of the encryption procedure *)
Inductive op := Host (x : side) (now : N) (c : command) | Deliver (x : side) (unmasked : bool) | Encrypt.

Definition step (s : system) (o : op) : option (system * N * list pdu * list event) :=
  match o with
  | Host Central now c =>
      match do_command now (cen s) c with (e, st, ps, ev) => Some (System e (per s) (to_per s ++ ps) (to_cen s), st, ps, ev) end
  | Host Peripheral now c =>
      match do_command now (per s) c with (e, st, ps, ev) => Some (System (cen s) e (to_per s) (to_cen s ++ ps), st, ps, ev) end
  | Deliver Central m =>
      match to_cen s with
      | [] => Some (s, SUCCESS, [], [])
      | p :: rest =>
          match do_receive m (cen s) p with
          | Some (e, ps, ev) => Some (System e (per s) (to_per s ++ ps) rest, SUCCESS, ps, ev)
          | None => None
          end
      end
  | Deliver Peripheral m =>
      match to_per s with
      | [] => Some (s, SUCCESS, [], [])
      | p :: rest =>
          match do_receive m (per s) p with
          | Some (e, ps, ev) => Some (System (cen s) e rest (to_cen s ++ ps), SUCCESS, ps, ev)
          | None => None
          end
      end
  | Encrypt => Some (System (with_encrypted (cen s)) (with_encrypted (per s)) (to_per s) (to_cen s), SUCCESS, [], [])
  end.

(** 5525-5543, le_cs_parameters.h:35-39, 76-87 *)
Record settings := Settings { s_support : bool; s_caps : caps; s_remote_feature : option bool; s_last : option N }.
Definition fresh (is_central : bool) (s : settings) : endpoint :=
  Endpoint is_central (s_support s) (s_caps s) (s_remote_feature s) false None None 0 [] false false (s_last s).
Definition connected (c p : settings) : system := System (fresh true c) (fresh false p) [] [].

(** The steps of a history, the latest first; [got] is the packet delivered *)
Record entry := Entry { what : op; got : option pdu; status_of : N; sent : list pdu; events : list event }.
Definition delivered (s : system) (o : op) : option pdu :=
  match o with Deliver Central _ => hd_error (to_cen s) | Deliver Peripheral _ => hd_error (to_per s) | _ => None end.
Inductive history (init : system) : list entry -> system -> Prop :=
| h_start : history init [] init
| h_step : forall h s o s' st ps ev, history init h s -> step s o = Some (s', st, ps, ev) -> history init (Entry o (delivered s o) st ps ev :: h) s'.
