(** What the host of a BR/EDR controller is told about its links: an abstract machine with
    the open links and the device being paged, and the counts of the events. *)
From Verif Require Import Prelude Table Bredr.
Open Scope N_scope.

(** The handles and peers of the open links, and the device being paged *)
Definition connections := (list (N * addr) * option addr)%type.

(** What can happen to the links of a controller *)
Inductive happening :=
| Opened (h : N) (a : addr)        (* a new link, an incoming connection *)
| Answered (h : N) (a : addr)      (* a new link, with the device paged *)
| Closed (h : N)                   (* the end of a link *)
| SyncClosed (h : N)               (* the end of a synchronous connection *)
| PageStarted (a : addr)
| PageEnded (st : status) (a : addr) (* the page ends without a link *)
| Turned (st : status) (a : addr)    (* the host refuses an incoming connection *)
| Forgotten.                       (* everything is dropped at once *)

Definition handles (c : connections) : list N := map fst (fst c).
Definition partners (c : connections) : list addr := map snd (fst c).

Inductive happens : connections -> happening -> connections -> Prop :=
| h_opened : forall t p h a, ~ In h (map fst t) -> ~ In a (map snd t) -> h <= 255 ->
    happens (t, p) (Opened h a) (t ++ [(h, a)], match p with Some b => if list_eqb b a then None else p | None => None end)
| h_answered : forall t h a, ~ In h (map fst t) -> ~ In a (map snd t) -> h <= 255 ->
    happens (t, Some a) (Answered h a) (t ++ [(h, a)], None)
| h_closed : forall t1 t2 p h a, happens (t1 ++ (h, a) :: t2, p) (Closed h) (t1 ++ t2, p)
| h_sync : forall c h, 256 <= h <= 511 -> happens c (SyncClosed h) c
| h_started : forall t a, ~ In a (map snd t) -> happens (t, None) (PageStarted a) (t, Some a)
| h_ended : forall t st a, happens (t, Some a) (PageEnded st a) (t, None)
| h_turned : forall c st a, happens c (Turned st a) c
| h_forgotten : forall c, happens c Forgotten ([], None).

Inductive happen : connections -> list happening -> connections -> Prop :=
| nothing : forall c, happen c [] c
| first : forall c l c' ls c'', happens c l c' -> happen c' ls c'' -> happen c (l :: ls) c''.

(** The happenings an operation, with its status, may cause *)
Definition ends_link (l : happening) : Prop := match l with Closed _ | SyncClosed _ => True | _ => False end.
Definition is_timeout (l : happening) : Prop := match l with PageEnded st _ => st = PAGE_TIMEOUT | _ => False end.
Definition succeeded (st : option status) : bool := match st with Some n => n =? SUCCESS | None => false end.
Definition causes (o : op) (st : option status) (ls : list happening) : Prop :=
  match o with
  | Command (CreateConnection a _) => ls = if succeeded st then [PageStarted a] else []
  | Command (CreateConnectionCancel a) =>
      ls = if succeeded st then [PageEnded UNKNOWN_CONNECTION a] else []
  | Command (RejectConnection a r) => ls = if succeeded st then [Turned r a] else []
  | Command (AcceptConnection a _) => ls = [] \/ exists h, ls = [Opened h a]
  | Command (Disconnect h _) => ls = [] \/ ls = [SyncClosed h] \/ ls = [Closed h] \/ exists h', ls = [SyncClosed h'; Closed h]
  | Command Reset => ls = [Forgotten]
  | Command _ => ls = []
  | AclFromHost _ _ _ _ => ls = []
  | ScoFromHost _ _ => ls = []
  | Receive _ p =>
      match content p with
      | PageResponse _ => ls = [] \/ exists h, ls = [Answered h (source p)]
      | PageReject r => ls = [] \/ ls = [PageEnded r (source p)]
      | Bye _ => ls = [] \/ exists h, ls = [Closed h]
      | ScoBye _ => ls = [] \/ exists h, ls = [SyncClosed h]
      | _ => ls = []
      end
  | Tick => exists cs ts, ls = cs ++ ts /\ Forall ends_link cs /\ Forall is_timeout ts /\ (List.length ts <= 1)%nat
  end.

(** * Counting events *)
Section Count.
Variable completes : status -> N -> addr -> Z. (* HCI Connection Complete of a link *)
Variable ends : N -> Z.                        (* HCI Disconnection Complete with success *)

Definition value_of_event (e : event) : Z :=
  match e with
  | ConnectionComplete st h a LINK_ACL => completes st h a
  | DisconnectionComplete st h _ => if st =? SUCCESS then ends h else 0
  | _ => 0
  end.
Definition value_of_output (o : output) : Z := match o with Event e => value_of_event e | _ => 0 end.
Definition value_of_job (j : job) : Z :=
  match j with
  | Tell e => value_of_event e
  | RejectPage a reason => completes reason 0xeff a
  | _ => 0
  end.
Definition value (l : happening) : Z :=
  match l with
  | Opened h a | Answered h a => completes SUCCESS h a
  | Closed h | SyncClosed h => ends h
  | PageStarted _ => 0
  | PageEnded st a => completes st 0 a
  | Turned st a => completes st 0xeff a
  | Forgotten => 0
  end.
Definition total {T : Type} (f : T -> Z) (l : list T) : Z := fold_right (fun x z => (f x + z)%Z) 0%Z l.
(** What the outputs of a step told the host, what is scheduled to be told, what happened *)
Definition told (out : list output) : Z := total value_of_output out.
Definition to_tell (s : bredr) : Z := total (fun t => value_of_job (what_to_do t)) (queue s).
Definition happened (ls : list happening) : Z := total value ls.
End Count.

(** The events HCI Connection Complete and HCI Disconnection Complete are not masked *)
Definition heard (s : bredr) : Prop := unmasked s 0x03 = true /\ unmasked s 0x05 = true.

(** The host keeps these two events *)
Definition audible (o : op) : Prop :=
  match o with Command (SetEventMask n) => N.testbit n 2 = true /\ N.testbit n 4 = true | _ => True end.

Definition seen (s : bredr) : connections :=
  (map (fun e => (fst e, acl_peer (snd e))) (acls s), option_map page_peer (page s)).

(** * Counts over histories *)

(** HCI Create Connection commands for a device that were accepted *)
Definition creates (a : addr) (h : list entry) : Z :=
  total (fun e => match what e with
                  | Command (CreateConnection b _) => if list_eqb b a && succeeded (status_of e) then 1 else 0
                  | _ => 0
                  end%Z) h.
(** The host answers the connection requests of the device *)
Definition answers (a : addr) (o : op) : Prop :=
  match o with
  | Command (AcceptConnection b _) => b = a
  | Command (RejectConnection b _) => b = a
  | _ => False
  end.
Definition mentions (a : addr) : status -> N -> addr -> Z := fun _ _ b => if list_eqb b a then 1%Z else 0%Z.
Definition none : N -> Z := fun _ => 0%Z.
(** HCI Connection Complete events of links with the device: sent, and scheduled *)
Definition completions (a : addr) (h : list entry) : Z := total (fun e => told (mentions a) none (sent e)) h.
Definition scheduled_completions (a : addr) (s : bredr) : Z := to_tell (mentions a) none s.

(** HCI Connection Complete events that announce a link with handle [k], and HCI
    Disconnection Complete events for [k]: sent, and scheduled *)
Definition opens (k : N) : status -> N -> addr -> Z := fun st h _ => if (st =? SUCCESS) && (h =? k) then 1%Z else 0%Z.
Definition closes (k : N) : N -> Z := fun h => if h =? k then 1%Z else 0%Z.
Definition never : status -> N -> addr -> Z := fun _ _ _ => 0%Z.
Definition announced (k : N) (h : list entry) : Z := total (fun e => told (opens k) none (sent e)) h.
Definition announced_next (k : N) (s : bredr) : Z := to_tell (opens k) none s.
Definition finished (k : N) (h : list entry) : Z := total (fun e => told never (closes k) (sent e)) h.
Definition finished_next (k : N) (s : bredr) : Z := to_tell never (closes k) s.
(** The peer refuses a connection with the status of a success *)
Definition absurd (o : op) : Prop :=
  match o with Receive _ p => content p = PageReject SUCCESS | _ => False end.

(** * What a step does, in these terms *)
Definition explained (s : bredr) (ls : list happening) (out : list output) (s' : bredr) : Prop :=
  happen (seen s) ls (seen s') /\
  forall cc dc, (told cc dc out + to_tell cc dc s' = to_tell cc dc s + happened cc dc ls)%Z.
(** Every operation of the history, with its happenings *)
Inductive explains : list entry -> list (list happening) -> connections -> Prop :=
| no_entry : explains [] [] ([], None)
| one_more : forall h lss c e ls c', explains h lss c -> causes (what e) (status_of e) ls -> happen c ls c' ->
    explains (e :: h) (ls :: lss) c'.

(** * Time *)
(** The clock of the history never goes back *)
Fixpoint timely (h : list entry) : Prop :=
  match h with [] => True | e :: h => (forall x, In x h -> at_time x <= at_time e) /\ timely h end.
(** The time of the last operation *)
Definition latest (h : list entry) : N := match h with [] => 0 | e :: _ => at_time e end.

(** * Contact with a peer *)
(** [e] is a packet received from [a] by the controller with address [own] *)
Definition received_from (own a : addr) (e : entry) : Prop :=
  match what e with
  | Receive _ p => source p = a /\ (destination p = empty_address \/ destination p = own)
  | _ => False
  end.
(** [e] is such a packet, or the host accepts a connection with [a] *)
Definition contact (own a : addr) (e : entry) : Prop :=
  received_from own a e \/ exists try, what e = Command (AcceptConnection a try).


(** * Data *)
Definition is_acl (p : air) : bool := match content p with Acl _ _ _ => true | _ => false end.
(** ACL packets sent to the radio and HCI Number Of Completed Packets events *)
Definition about_data (o : output) : bool :=
  match o with
  | Sent p => is_acl p
  | Event (CompletedPackets _ _) => true
  | _ => false
  end.
(** Those that are scheduled, in the order of the queue *)
Definition result_of (j : job) : list output :=
  match j with Transmit p => [Sent p] | Tell e => [Event e] | _ => [] end.
Definition data_of (t : task) : list output := filter about_data (result_of (what_to_do t)).
Definition waiting (s : bredr) : list output := flat_map data_of (queue s).
(** What the data given by the host must become: a packet for the peer of the link, and an
    event *)
Definition accepted (o : op) (s : bredr) : list output :=
  match o with
  | AclFromHost h b bc d =>
      match lookup (acls s) h with
      | Some c => [Sent (Air (address s) (acl_peer c) (Acl b bc d))]
      | None => []
      end ++ [Event (CompletedPackets h 1)]
  | _ => []
  end.

Section Given.
Variable order : table sco_link -> table sco_link.
Variable cfg : config.
(** What the host gives during the steps of [ops], from [s] *)
Fixpoint given (s : bredr) (ops : list (N * op)) : list output :=
  match ops with
  | [] => []
  | (now, o) :: ops =>
      accepted o s ++ match step order cfg now s o with Ok (s', _, _) => given s' ops | _ => [] end
  end.
End Given.


(** The history of the steps, the first one first *)
Definition data_sent (h : list entry) : list output := flat_map (fun e => filter about_data (sent e)) (rev h).

