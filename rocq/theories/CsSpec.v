(** Vocabulary for the properties of channel sounding. *)
From Verif Require Import Prelude Table Cs.
Open Scope N_scope.

Definition side_eqb (a b : side) : bool := match a, b with Central, Central | Peripheral, Peripheral => true | _, _ => false end.
Definition end_of (x : side) (s : system) : endpoint := match x with Central => cen s | Peripheral => per s end.
Definition quiet (s : system) : Prop := to_per s = [] /\ to_cen s = [].

(** ** The standing of a configuration at a side, told from what happened there *)
Inductive standing := Absent | Created | Ready | Running.
Definition after_entry (x : side) (id : N) (e : entry) (was : standing) : standing :=
  match what e with
  | Host y _ c =>
      if negb (side_eqb x y) || negb (status_of e =? SUCCESS) then was
      else match c with
           | CreateConfig i _ _ _ => if i =? id then Created else was
           | RemoveConfig i => if i =? id then Absent else was
           | SetProcedure i _ => if i =? id then Ready else was
           | ProcedureEnable i true => if i =? id then Running else was
           | _ => was
           end
  | Deliver y _ =>
      if negb (side_eqb x y) then was
      else match got e, sent e with
           | Some (ConfigReq _ action _), [ConfigRsp 0 i] => if i =? id then (if action =? 1 then Created else if action =? 0 then Absent else was) else was
           | Some (ConfigRsp status i), _ => if (i =? id) && negb (status =? 0) then Absent else was
           | _, _ => was
           end
  | Encrypt => was
  end.
Fixpoint standing_of (x : side) (id : N) (h : list entry) : standing :=
  match h with [] => Absent | e :: h => after_entry x id e (standing_of x id h) end.

(** ** Channels: Vol 6, Part H, 4.1; there are 79 *)
Definition uses (map : list N) (channel : nat) : bool := N.testbit (nth (channel / 8) map 0) (N.of_nat (channel mod 8)).
Definition channels (map : list N) : list nat := filter (uses map) (seq 0 79).
Definition reserved_channels : list nat := [0; 1; 23; 24; 25; 77; 78]%nat.
(** Nothing reserved and at least fifteen channels *)
Definition valid_map (map : list N) : Prop := (forall c, In c reserved_channels -> uses map c = false) /\ (15 <= List.length (channels map))%nat.
(** The same, where the bit after the last channel counts as a channel *)
Definition nearly_valid_map (map : list N) : Prop :=
  (forall c, In c reserved_channels -> uses map c = false) /\ (15 <= List.length (filter (uses map) (seq 0 80)))%nat.

(** ** A configuration: Vol 4, Part E, 7.8.137 *)
Record valid_body (b : body) : Prop := {
  vb_map : nearly_valid_map (channel_map b);
  vb_modes : In (main_mode b, sub_mode b) [(1, 255); (2, 255); (3, 255); (2, 1); (2, 3); (3, 2)];
  vb_steps : sub_mode b <> 255 -> 1 <= min_steps b <= max_steps b;
  vb_repetition : repetition b <= 3;
  vb_mode_0 : 1 <= mode_0_steps b <= 3;
  vb_map_repetition : 1 <= map_repetition b;
  vb_selection : selection b = 1;
  vb_shape : shape b <= 1;
  vb_jump : 2 <= jump b <= 8 }.

(** What a controller must be capable of to play [its_role] in a configuration *)
Record supports (c : caps) (its_role id : N) (b : body) : Prop := {
  su_id : id < num_config c;
  su_role : N.testbit (roles c) its_role = true;
  su_mode : main_mode b = 3 \/ sub_mode b = 3 -> N.testbit (modes c) 0 = true;
  su_rtt : (rtt_type b = 0 /\ rtt_aa c <> 0) \/ (1 <= rtt_type b <= 2 /\ rtt_sounding c <> 0) \/ (3 <= rtt_type b <= 6 /\ rtt_random c <> 0);
  su_phy : sync_phy b = 1 \/ (sync_phy b = 2 /\ N.testbit (sync_phys c) 1 = true) \/ (sync_phy b = 3 /\ N.testbit (sync_phys c) 2 = true) }.

(** ** What the controller at a side has been told, from what happened there *)
(** The capabilities of the other controller *)
Definition told_capabilities (x : side) (e : entry) (was : option caps) : option caps :=
  match what e, got e with
  | Host y _ (WriteCapabilities c), _ => if side_eqb x y && (status_of e =? SUCCESS) then Some c else was
  | Deliver y _, Some (CapReq c) => if side_eqb x y && match sent e with [CapRsp 0 _] => true | _ => false end then Some c else was
  | Deliver y _, Some (CapRsp status c) => if side_eqb x y && (status =? 0) then Some c else was
  | _, _ => was
  end.
Fixpoint capabilities_of (x : side) (h : list entry) : option caps :=
  match h with [] => None | e :: h => told_capabilities x e (capabilities_of x h) end.
(** The roles the host allowed *)
Definition told_roles (x : side) (e : entry) (was : N) : N :=
  match what e with
  | Host y _ (SetDefaultSettings r _) => if side_eqb x y && (status_of e =? SUCCESS) then r else was
  | _ => was
  end.
Fixpoint roles_of (x : side) (h : list entry) : N :=
  match h with [] => 0 | e :: h => told_roles x e (roles_of x h) end.

(** Steps of a history *)
Definition is_encrypt (e : entry) : Prop := what e = Encrypt.
(** The host at [x] is told that the security procedure succeeded *)
Definition security_reported (x : side) (e : entry) : Prop := exists m, what e = Deliver x m /\ In (SecurityComplete SUCCESS) (events e).
(** The host at [x] is told that a procedure of configuration [id] is on *)
Definition start_reported (x : side) (id : N) (e : entry) : Prop := exists m, what e = Deliver x m /\ In (ProcedureComplete SUCCESS id true) (events e).
(** The controller at [x] accepts the start of a procedure that the other end asked for *)
Definition start_accepted (x : side) (id : N) (e : entry) : Prop :=
  exists m len, what e = Deliver x m /\ got e = Some (CsReq id len) /\ (In (CsRsp SUCCESS id len) (sent e) \/ In (CsInd SUCCESS id len) (sent e)).
Definition other (x : side) : side := match x with Central => Peripheral | Peripheral => Central end.
Definition sound_settings (c p : settings) : Prop := s_support c = true /\ s_support p = true.
