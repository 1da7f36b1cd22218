(** Synchronous connections between two BR/EDR controllers. *)
From Verif Require Import Prelude Table Sco Bredr BredrBase BredrSpec BredrPairSpec.
Open Scope N_scope.

(** The synchronous connections of a controller with [x], open or not *)
Definition calls (x : addr) (s : bredr) : list (N * sco_link) := filter (fun e => list_eqb (sco_peer (snd e)) x) (scos s).
(** Some of them wait for the answer of [x], or for the answer of the host *)
Definition calling (x : addr) (s : bredr) : Prop := exists h c, In (h, c) (calls x s) /\ sco_now c = PENDING.
Definition called (x : addr) (s : bredr) : Prop :=
  exists h c, In (h, c) (calls x s) /\ (sco_now c = SENT_ESCO_CONNECTION_REQUEST \/ sco_now c = SENT_SCO_CONNECTION_REQUEST).
(** One is open, with these parameters *)
Definition in_call (x : addr) (l : link) (s : bredr) : Prop :=
  exists h c, In (h, c) (calls x s) /\ sco_now c = OPENED /\ sco_negotiated c = l.

(** The packets that set up a synchronous connection, and that end one *)
Definition dials (p : air) : bool := match content p with ScoRequest _ _ | ScoResponse _ _ => true | _ => false end.
Definition hangs_up (p : air) : bool := match content p with ScoBye _ => true | _ => false end.

(** A host that does not answer its own request. The reason of a refusal is an octet. *)
Definition polite (x : addr) (s : bredr) (o : op) : Prop :=
  match o with
  | Command (AcceptConnection y _) | Command (AcceptSync y _) | Command (EnhancedAccept y _ _) => y = x -> ~ calling x s
  | Command (RejectSync y reason) => reason < 256 /\ (y = x -> ~ calling x s)
  | _ => True
  end.

Section Sync.
Variables (order1 order2 : table sco_link -> table sco_link) (cfg1 cfg2 : config) (a b : addr).
Variables k k' : N.   (* the handles of the link at both ends *)

(** The link is open, no end has two synchronous connections with the other one and none is
    being closed; the hosts are told of connections; no end has connections with a device
    without address *)
Definition end_steady (x : addr) (h : N) (s : bredr) : Prop :=
  (exists c, acl_of x s = Some (h, c)) /\ (List.length (calls x s) <= 1)%nat /\ unmasked s 0x03 = true /\
  acl_of empty_address s = None /\ calls empty_address s = [].
Definition sync_steady (w : world) : Prop :=
  end_steady b k (left w) /\ end_steady a k' (right w) /\
  (forall p, In p (way_right b w) -> hangs_up p = false) /\ (forall p, In p (way_left a w) -> hangs_up p = false).
(** Nothing is being set up *)
Definition sync_quiet (w : world) : Prop :=
  (forall p, In p (way_right b w) -> dials p = false) /\ (forall p, In p (way_left a w) -> dials p = false).

(** From [w0] to [w] with the operations [nl] and [nr] of polite hosts, and it stays steady *)
Inductive dialling (hl hr : list entry) (w0 : world) : list entry -> list entry -> world -> Prop :=
| hung_up : reaches order1 order2 cfg1 cfg2 a b hl hr w0 -> sync_steady w0 -> dialling hl hr w0 [] [] w0
| left_dials : forall nl nr w e w', dialling hl hr w0 nl nr w -> polite b (left w) (what e) ->
    moves order1 order2 cfg1 cfg2 a b w Left e w' -> timely (e :: nl ++ hl) -> sync_steady w' -> dialling hl hr w0 (e :: nl) nr w'
| right_dials : forall nl nr w e w', dialling hl hr w0 nl nr w -> polite a (right w) (what e) ->
    moves order1 order2 cfg1 cfg2 a b w Right e w' -> timely (e :: nr ++ hr) -> sync_steady w' -> dialling hl hr w0 nl (e :: nr) w'.
End Sync.

(** ** What the host on the left is told *)
Definition synchronous (t : link_type) : bool := match t with LINK_ACL => false | _ => true end.
Definition call_complete (b : addr) (e : event) : list status :=
  match e with
  | SynchronousComplete st _ x _ _ _ _ _ _ => if list_eqb x b then [st] else []
  | ConnectionComplete st _ x t => if synchronous t && list_eqb x b then [st] else []
  | _ => []
  end.
Definition calls_told (b : addr) (h : list entry) : list status :=
  flat_map (fun e => flat_map (fun o => match o with Event v => call_complete b v | _ => [] end) (sent e)) (rev h).
Definition calls_to_tell (b : addr) (s : bredr) : list status :=
  flat_map (fun t => match what_to_do t with Tell v => call_complete b v | _ => [] end) (queue s).
(** The commands for a synchronous connection on the link [k], if they were accepted *)
Definition call_commands (k : N) (h : list entry) : nat :=
  List.length (filter (fun e => match what e, status_of e with
    | Command (AddSco x _), Some st | Command (SetupSync x _), Some st | Command (EnhancedSetup x _ _), Some st => (x =? k) && (st =? SUCCESS)
    | _, _ => false end) h).
(** The requests of [b] that the host was told of *)
Definition call_requests (b : addr) (h : list entry) : nat :=
  List.length (flat_map (fun e => filter (fun o => match o with Event (ConnectionRequest x _ t) => synchronous t && list_eqb x b | _ => false end) (sent e)) h).

(** How many wait for an answer, and how many are open *)
Definition undecided (b : addr) (s : bredr) : nat := List.length (filter (fun e => is_pending (snd e)) (calls b s)).
Definition open_calls (b : addr) (s : bredr) : nat := List.length (filter (fun e => match sco_now (snd e) with OPENED => true | _ => false end) (calls b s)).
Definition successful (l : list status) : nat := List.length (filter (fun st => st =? SUCCESS) l).
(** No end has a synchronous connection with the other one, and none is being set up *)
Definition hung_up_both (a b : addr) (w : world) : Prop := calls b (left w) = [] /\ calls a (right w) = [] /\ sync_quiet a b w.

(** ** Voice *)
Definition voice_of (p : air) : list (list N) := match content p with Voice d => [d] | _ => [] end.
Definition voice_sent (h : N) (l : list entry) : list (list N) :=
  flat_map (fun e => match what e with ScoFromHost x d => if x =? h then [d] else [] | _ => [] end) (rev l).
Definition voice_heard (h : N) (l : list entry) : list (list N) :=
  flat_map (fun e => flat_map (fun o => match o with ScoToHost x d => if x =? h then [d] else [] | _ => [] end) (sent e)) (rev l).
(** Each end has one synchronous connection with the other one, the left one [h] and the
    right one [h'], and the left one sends no packets of its own *)
Definition call_steady (a b : addr) (h h' : N) (w : world) : Prop :=
  (exists c, calls b (left w) = [(h, c)]) /\ (exists c, calls a (right w) = [(h', c)]) /\
  calls empty_address (left w) = [] /\ forall t n, In t (queue (left w)) -> what_to_do t <> Stream n.
