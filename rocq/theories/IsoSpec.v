(** What the host of an isochronous stream controller sees, and the vocabulary of
    the property theorems. Nothing here looks inside the state of the model except
    the conditions put on executions ([orderly], [sane]). *)
From Verif Require Import Prelude Table Iso.
Open Scope N_scope.

(** One step of an execution: the controller features at that time, what happened,
    and what the link layer sent in answer. Histories list the latest step first. *)
Record moment := Moment { seen : env; what : op; sent : list output }.

Inductive history (checked : bool) (P : state -> op -> Prop) : list moment -> state -> Prop :=
| history_start : history checked P [] initial
| history_step h s e o s' out :
    history checked P h s -> P s o -> step checked e s o = Ok s' out ->
    history checked P (Moment e o out :: h) s'.

Definition any (s : state) (o : op) : Prop := True.

(** The command a host operation is, if it is one. *)
Definition command (o : op) : option opcode :=
  match o with
  | SetCig _ _ _ _ _ _ _ => Some OP_SET_CIG
  | SetCigTest _ _ _ _ _ _ _ _ => Some OP_SET_CIG_TEST
  | RemoveCig _ => Some OP_REMOVE_CIG
  | CreateCis _ => Some OP_CREATE_CIS
  | AcceptCis _ => Some OP_ACCEPT
  | RejectCis _ _ => Some OP_REJECT
  | SetupPath _ _ _ _ => Some OP_SETUP_PATH
  | RemovePath _ _ _ => Some OP_REMOVE_PATH
  | Disconnect _ _ => Some OP_DISCONNECT
  | CreateBig _ _ _ _ _ _ _ _ => Some OP_CREATE_BIG
  | TerminateBig _ _ => Some OP_TERMINATE_BIG
  | _ => None
  end.

(** The answers to commands among the outputs: command, status, handles. *)
Definition answers (out : list output) : list (opcode * N * list N) :=
  flat_map (fun o => match o with Event (Answer c st hs) => [(c, st, hs)] | _ => [] end) out.

(** The command was answered with status success. *)
Definition accepted (m : moment) : bool :=
  existsb (fun a => snd (fst a) =? SUCCESS) (answers (sent m)).
Definition handles (m : moment) : list N := flat_map snd (answers (sent m)).

(** A stream known to the host: configured by itself in group [g], or requested by a
    peer on the link [acl]. *)
Inductive stream := Own (g c : N) | Theirs (acl g c : N).

Definition own_of (g : N) (s : stream) : bool := match s with Own g' _ => g' =? g | _ => false end.
Definition theirs_on (a : N) (s : stream) : bool := match s with Theirs a' _ _ => a' =? a | _ => false end.

(** The streams named to the host by an output received from a peer. *)
Definition announce (t : table stream) (o : output) : table stream :=
  match o with
  | Event (CisRequested acl x g c) => put t x (Theirs acl g c)
  | Event (Disconnected x _) => erase t x
  | _ => t
  end.

(** The handles the host holds, and what each one stands for. *)
Definition learn (m : moment) (t : table stream) : table stream :=
  match what m with
  | SetCig g _ _ _ _ _ l | SetCigTest g _ _ _ _ _ _ l =>
      if accepted m
      then fold_left (fun t e => put t (fst e) (Own g (n_id (snd e)))) (combine (handles m) l) t
      else t
  | RemoveCig g => if accepted m then filter (fun e => negb (own_of g (snd e))) t else t
  | RejectCis x _ => if accepted m then erase t x else t
  | Disconnect x _ =>
      if accepted m
      then match lookup t x with Some (Theirs _ _ _) => erase t x | _ => t end
      else t
  | RemoveLink a _ => filter (fun e => negb (theirs_on a (snd e))) t
  | Receive _ _ _ => fold_left announce (sent m) t
  | _ => t
  end.
Fixpoint streams (h : list moment) : table stream :=
  match h with [] => [] | m :: h => learn m (streams h) end.

(** Field widths of the packets (hci_packets.pdl:4542-4664, llcp_packets.pdl:228-277). *)
Definition byte (x : N) : Prop := x < 256.
Definition word (x : N) : Prop := x < 2 ^ 16.
Definition entry_fields (n : entry) : Prop :=
  byte (n_id n) /\ max_sdu_cp (n_config n) < 2 ^ 16 /\ max_sdu_pc (n_config n) < 2 ^ 16 /\
  byte (phy_cp (n_config n)) /\ byte (phy_pc (n_config n)).
(** LE Set CIG Parameters gives no NSE, BN or Max_PDU; the test command gives all. *)
Definition plain_entry (n : entry) : Prop :=
  set_nse (n_config n) = None /\ set_bn_cp (n_config n) = None /\ set_bn_pc (n_config n) = None /\
  set_pdu_cp (n_config n) = None /\ set_pdu_pc (n_config n) = None.
Definition given (o : option N) (P : N -> Prop) : Prop := exists x, o = Some x /\ P x.
Definition test_entry (n : entry) : Prop :=
  given (set_nse (n_config n)) byte /\ given (set_bn_cp (n_config n)) byte /\ given (set_bn_pc (n_config n)) byte /\
  given (set_pdu_cp (n_config n)) word /\ given (set_pdu_pc (n_config n)) word.
Definition fields (o : op) : Prop :=
  match o with
  | SetCig g cp pc _ lc lp l =>
      byte g /\ cp < 2 ^ 24 /\ pc < 2 ^ 24 /\ word lc /\ word lp /\
      Forall entry_fields l /\ Forall plain_entry l
  | SetCigTest g cp pc fc fp iso _ l =>
      byte g /\ cp < 2 ^ 24 /\ pc < 2 ^ 24 /\ byte fc /\ byte fp /\ word iso /\
      Forall entry_fields l /\ Forall test_entry l
  | Receive _ _ (CisReq g c _) => byte g /\ byte c
  | _ => True
  end.

(** While the creation of a stream waits for its turn, the host does not remove its
    group and the peer does not terminate it; a link is lost for a reason. *)
Definition orderly (s : state) (o : op) : Prop :=
  fields o /\
  match o with
  | RemoveCig g => forall r, In r (queue s) -> r_cig r <> g
  | Receive _ _ (CisTerminate g c _) => forall r, In r (queue s) -> ~ (r_cig r = g /\ r_cis r = c)
  | RemoveLink _ reason => reason <> SUCCESS
  | _ => True
  end.

(** Conditions under which the link layer does not crash. *)

(** The smallest interval that is a whole number of both SDU intervals, an unused
    direction having none. *)
Definition common (cp pc : N) : N :=
  if cp =? 0 then pc else if pc =? 0 then cp else N.lcm cp pc.

(** The transport latency in one direction, an ISO interval lasting [iso] * 1.25 ms, fits
    in 24 bits and is not negative. *)
Definition latency_ok (iso ft interval : N) (fr : bool) : Prop :=
  1250 * iso * (1 + ft) + interval < 2 ^ 24 /\ (fr = true \/ interval <= 1250 * iso * (1 + ft)).

(** A stream in at least one direction, of at most fifteen PDUs of 251 bytes per interval. *)
Definition carries (n : entry) : Prop :=
  max_sdu_cp (n_config n) <= 3765 /\ max_sdu_pc (n_config n) <= 3765 /\
  0 < max_sdu_cp (n_config n) + max_sdu_pc (n_config n).
Definition bursts (n : entry) : Prop :=
  given (set_nse (n_config n)) (fun x => 1 <= x) /\
  given (set_bn_cp (n_config n)) (fun x => x < 16) /\ given (set_bn_pc (n_config n)) (fun x => x < 16).

(** The parameters of a stream request that can be reported to the host. *)
Definition params_ok (p : params) : Prop :=
  In (p_phy_cp p) [1; 2; 4] /\ In (p_phy_pc p) [1; 2; 4] /\ p_bn_cp p < 16 /\ p_bn_pc p < 16 /\
  latency_ok (p_iso p) (p_ft_cp p) (p_int_cp p) (p_framed p) /\
  latency_ok (p_iso p) (p_ft_pc p) (p_int_pc p) (p_framed p).

Definition sane (s : state) (o : op) : Prop :=
  orderly s o /\
  match o with
  | SetCig _ cp pc fr lc lp l =>
      lenN (conns s) + lenN l <= 254 /\ cp <= 0xfffff /\ pc <= 0xfffff /\ lc <= 0xfa0 /\ lp <= 0xfa0 /\
      (fr = true \/ (cp + pc <> 0 /\ 2 * N.lcm 1250 (common cp pc) < 2 ^ 32)) /\ Forall carries l
  | SetCigTest _ cp pc fc fp iso fr l =>
      lenN (conns s) + lenN l <= 254 /\ cp <= 0xfffff /\ pc <= 0xfffff /\
      latency_ok iso fc cp fr /\ latency_ok iso fp pc fr /\ Forall bursts l
  | CreateBig _ _ num _ _ _ _ _ => lenN (biss s) + num <= 255
  | AddLink a _ => has (acls s) a = false
  | RemoveLink a _ => has (acls s) a = true
  | Receive _ acl p =>
      match p with
      | CisReq _ _ p => lenN (conns s) < 254 /\ params_ok p
      | CisInd a b =>
          forall x c p, lookup (conns s) x = Some c -> c_phase c = PendingInd -> c_acl c = Some acl ->
            c_params c = Some p -> a = 1250 * p_iso p /\ b = 1250 * p_iso p
      | CisTerminate _ _ error => declared_error error = true
      | RejectExt code _ => code = CIS_REQ_OPCODE
      | OtherLlcp => False
      | CisRsp => True
      end
  | _ => True
  end.

(** The last thing the host was told about handle [x] is that it is established. *)
Definition change (x : N) (b : bool) (o : output) : bool :=
  match o with
  | Event (Established st y _) => if (y =? x) && (st =? SUCCESS) then true else b
  | Event (Disconnected y _) => if y =? x then false else b
  | _ => b
  end.
Fixpoint up (x : N) (h : list moment) : bool :=
  match h with [] => false | m :: h => fold_left (change x) (sent m) (up x h) end.

(** The command that last configured group [g], unless the group was removed since. *)
Fixpoint group_of (g : N) (h : list moment) : option op :=
  match h with
  | [] => None
  | m :: h =>
      match what m with
      | SetCig g' _ _ _ _ _ _ | SetCigTest g' _ _ _ _ _ _ _ =>
          if accepted m && (g' =? g) then Some (what m) else group_of g h
      | RemoveCig g' => if accepted m && (g' =? g) then None else group_of g h
      | _ => group_of g h
      end
  end.

(** The entry that last configured stream [c] of group [g], unless the group was removed. *)
Definition entry_of (c : N) (l : list entry) : option entry := find (fun n => n_id n =? c) (rev l).
Fixpoint entry_for (g c : N) (h : list moment) : option entry :=
  match h with
  | [] => None
  | m :: h =>
      match what m with
      | SetCig g' _ _ _ _ _ l | SetCigTest g' _ _ _ _ _ _ l =>
          if accepted m && (g' =? g)
          then match entry_of c l with Some n => Some n | None => entry_for g c h end
          else entry_for g c h
      | RemoveCig g' => if accepted m && (g' =? g) then None else entry_for g c h
      | _ => entry_for g c h
      end
  end.

(** A stream of group [g] was asked for since the group was created. *)
Definition stands_for (g : N) (t : table stream) (x : N) : bool :=
  match lookup t x with Some s => own_of g s | None => false end.
Fixpoint frozen (g : N) (h : list moment) : bool :=
  match h with
  | [] => false
  | m :: h =>
      match what m with
      | CreateCis l => frozen g h || (accepted m && existsb (fun e => stands_for g (streams h) (fst e)) l)
      | RemoveCig g' => frozen g h && negb (accepted m && (g' =? g))
      | _ => frozen g h
      end
  end.

(** What a stream request says of the group and the stream the host configured. *)
Definition carries_group (o : op) (p : params) : Prop :=
  match o with
  | SetCig _ cp pc fr _ _ _ =>
      p_int_cp p = cp /\ p_int_pc p = pc /\ p_framed p = fr /\ p_ft_cp p = 1 /\ p_ft_pc p = 1
  | SetCigTest _ cp pc fc fp iso fr _ =>
      p_int_cp p = cp /\ p_int_pc p = pc /\ p_framed p = fr /\ p_ft_cp p = fc /\ p_ft_pc p = fp /\
      p_iso p = iso
  | _ => False
  end.
Definition allowed (phys phy : N) : Prop := In phy [1; 2; 4] /\ N.land phys phy = phy.
(** Without a given burst number and PDU size, the bursts are just large enough. *)
Definition enough (sdu bn pdu : N) : Prop := sdu <= bn * pdu /\ (bn <> 0 -> (bn - 1) * pdu < sdu).
Definition carries_stream (c : config) (p : params) : Prop :=
  p_sdu_cp p = max_sdu_cp c /\ p_sdu_pc p = max_sdu_pc c /\
  allowed (phy_cp c) (p_phy_cp p) /\ allowed (phy_pc c) (p_phy_pc p) /\
  match set_nse c with Some n => p_nse p = n | None => p_nse p = N.max (p_bn_cp p) (p_bn_pc p) end /\
  match set_pdu_cp c with Some n => p_pdu_cp p = n | None => p_pdu_cp p = 251 end /\
  match set_pdu_pc c with Some n => p_pdu_pc p = n | None => p_pdu_pc p = 251 end /\
  match set_bn_cp c with Some n => p_bn_cp p = n | None => enough (max_sdu_cp c) (p_bn_cp p) 251 end /\
  match set_bn_pc c with Some n => p_bn_pc p = n | None => enough (max_sdu_pc c) (p_bn_pc p) 251 end.

(** Both SDU intervals divide the ISO interval, and the transport latency is within the
    maximum the host gave; a direction with no SDU interval is unused. *)
Definition interval_fits (o : op) (iso : N) : Prop :=
  match o with
  | SetCig _ cp pc false lc lp _ =>
      (cp <> 0 -> (1250 * iso) mod cp = 0) /\ (pc <> 0 -> (1250 * iso) mod pc = 0) /\
      (cp <> 0 -> 1250 * iso + 1250 * iso - cp <= lc * 1000) /\
      (pc <> 0 -> 1250 * iso + 1250 * iso - pc <= lp * 1000)
  | SetCig _ cp pc true lc lp _ =>
      (cp <> 0 -> 1250 * iso + 1250 * iso + cp <= lc * 1000) /\
      (pc <> 0 -> 1250 * iso + 1250 * iso + pc <= lp * 1000)
  | _ => True
  end.

(** The data path of stream [x] to the host ([out]) or from it is set up. *)
Fixpoint path (x : N) (out : bool) (h : list moment) : bool :=
  match h with
  | [] => false
  | m :: h' =>
      match lookup (streams h) x with
      | None => false
      | Some _ =>
          match what m with
          | SetupPath y o _ _ => if accepted m && (y =? x) && Bool.eqb o out then true else path x out h'
          | RemovePath y i o =>
              if accepted m && (y =? x) && (if out then o else i) then false else path x out h'
          | _ => path x out h'
          end
      end
  end.

(** The broadcast groups of the host: advertising set and handles. *)
Definition broadcast (m : moment) (t : table (N * list N)) : table (N * list N) :=
  match what m with
  | CreateBig b adv _ _ _ _ _ _ =>
      fold_left (fun t o => match o with Event (BigCreated b' _ _ _ _ hs) => put t b' (adv, hs) | _ => t end) (sent m) t
  | TerminateBig b _ =>
      fold_left (fun t o => match o with Event (BigTerminated b' _) => erase t b' | _ => t end) (sent m) t
  | _ => t
  end.
Fixpoint broadcasts (h : list moment) : table (N * list N) :=
  match h with [] => [] | m :: h => broadcast m (broadcasts h) end.

(** [x] is the handle of a stream of a broadcast group *)
Definition in_broadcast (x : N) (h : list moment) : bool :=
  existsb (fun e => existsb (N.eqb x) (snd (snd e))) (broadcasts h).
(** The data path of broadcast stream [x] is set up *)
Fixpoint bpath (x : N) (h : list moment) : bool :=
  match h with
  | [] => false
  | m :: h' =>
      if in_broadcast x h then
        match what m with
        | SetupPath y _ _ _ => if accepted m && (y =? x) then true else bpath x h'
        | RemovePath y i _ => if accepted m && (y =? x) && i then false else bpath x h'
        | _ => bpath x h'
        end
      else false
  end.

(** The two directions exchanged in burst number, flush timeout and PDU size only. *)
Definition exchanged (r q : report) : Prop :=
  e_cig_delay q = e_cig_delay r /\ e_cis_delay q = e_cis_delay r /\
  e_latency_cp q = e_latency_cp r /\ e_latency_pc q = e_latency_pc r /\
  e_phy_cp q = e_phy_cp r /\ e_phy_pc q = e_phy_pc r /\ e_nse q = e_nse r /\ e_iso q = e_iso r /\
  e_bn_cp q = e_bn_pc r /\ e_bn_pc q = e_bn_cp r /\
  e_ft_cp q = e_ft_pc r /\ e_ft_pc q = e_ft_cp r /\
  e_pdu_cp q = e_pdu_pc r /\ e_pdu_pc q = e_pdu_cp r.

(** How many stream requests sent on a link are not answered yet. *)
Definition asks (acl : N) (o : output) : bool :=
  match o with Send a (CisReq _ _ _) => a =? acl | _ => false end.
Definition answered_by (acl : N) (o : op) : nat :=
  match o with
  | Receive _ a CisRsp | Receive _ a (RejectExt _ _) => if a =? acl then 1%nat else 0%nat
  | _ => 0%nat
  end.
Fixpoint unanswered (acl : N) (h : list moment) : nat :=
  match h with
  | [] => 0
  | m :: h => unanswered acl h - answered_by acl (what m) + length (filter (asks acl) (sent m))
  end%nat.

(** How many streams this side accepted on a link and that the other side did not confirm yet. *)
Definition agrees_to (acl : N) (o : output) : bool :=
  match o with Send a CisRsp => a =? acl | _ => false end.
Definition confirmed_by (acl : N) (o : op) : nat :=
  match o with Receive _ a (CisInd _ _) => if a =? acl then 1%nat else 0%nat | _ => 0%nat end.
Fixpoint unconfirmed (acl : N) (h : list moment) : nat :=
  match h with
  | [] => 0
  | m :: h => unconfirmed acl h - confirmed_by acl (what m) + length (filter (agrees_to acl) (sent m))
  end%nat.
