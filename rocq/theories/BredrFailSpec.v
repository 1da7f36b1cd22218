(** The situations in which the BR/EDR controller does not survive a call. *)
From Verif Require Import Prelude Table Sco Bredr BredrBase BredrSpec BredrPairSpec BredrSyncSpec.
Open Scope N_scope.

(** How a call can fail: the process is aborted, an array is read past its end, or the call
    never returns *)
Inductive failure := Aborts | ReadsOutside | NeverReturns.
Definition failure_of {A : Type} (r : result A) : option failure :=
  match r with Ok _ => None | Abort => Some Aborts | OutOfBounds => Some ReadsOutside | Hang => Some NeverReturns end.

Definition linked (x : addr) (s : bredr) : Prop := In x (peers s).
(** Seven links with devices that have an address *)
Definition crowded (s : bredr) : Prop := (7 <= List.length (filter (fun x => negb (list_eqb x empty_address)) (peers s)))%nat.
(** Every handle of the synchronous connections is in use *)
Definition no_handle (s : bredr) : Prop := List.length (scos s) = 256%nat.
(** The link has been silent for too long *)
Definition expired (now : N) (c : acl_link) : Prop := last_heard c + 3000000 < now.
(** A check of the link is due *)
Definition check_due (now h : N) (s : bredr) : Prop := exists t, In t (queue s) /\ due t <= now /\ what_to_do t = CheckLink h.

Section Fatal.
Variables (order : table sco_link -> table sco_link) (cfg : config).

(** The synchronous connection found when the peer is [x] waits for an answer; or it is
    open, with a stream of audio *)
Definition waits (x : addr) (s : bredr) : Prop := exists h c, sco_of order x s = Some (h, c) /\
  (sco_now c = PENDING \/ sco_now c = SENT_ESCO_CONNECTION_REQUEST \/ sco_now c = SENT_SCO_CONNECTION_REQUEST).
Definition streams_to (x : addr) (s : bredr) : Prop := exists h c i, sco_of order x s = Some (h, c) /\ sco_stream c = Some i.

(** The requests of a new synchronous connection on a link *)
Definition asks_for_call (o : op) : option N :=
  match o with
  | Command (AddSco h _) | Command (SetupSync h _) => Some h
  | Command (EnhancedSetup h p e) => if enhanced_ok p e then Some h else None
  | _ => None
  end.

(** What must not happen *)
Inductive fatal (now : N) (s : bredr) : op -> failure -> Prop :=
(* data that is not for one device *)
| fatal_broadcast : forall h pb bc d, bc <> 0 -> fatal now s (AclFromHost h pb bc d) Aborts
(* a peer asks for a page of features that does not exist *)
| fatal_page : forall rssi p n, for_me p s = true -> content p = ExtendedFeaturesRequest n -> n <> 1 -> lenN (lmp_features cfg) <= n ->
    fatal now s (Receive rssi p) ReadsOutside
(* an eighth link *)
| fatal_accept : forall x try, paged_by x s = true -> ~ linked x s -> crowded s -> fatal now s (Command (AcceptConnection x try)) Aborts
| fatal_response : forall rssi p try, for_me p s = true -> content p = PageResponse try -> paging (source p) s = true -> crowded s ->
    fatal now s (Receive rssi p) Aborts
(* the peer closes the link before its synchronous connections *)
| fatal_bye : forall rssi p reason, for_me p s = true -> content p = Bye reason -> linked (source p) s -> calls (source p) s <> [] ->
    fatal now s (Receive rssi p) Aborts
(* the host closes the link, or it expires, while there are two of them *)
| fatal_disconnect : forall h reason c, lookup (acls s) h = Some c -> (2 <= List.length (calls (acl_peer c) s))%nat ->
    fatal now s (Command (Disconnect h reason)) Aborts
| fatal_tick : forall h c, lookup (acls s) h = Some c -> (2 <= List.length (calls (acl_peer c) s))%nat ->
    expired now c -> check_due now h s -> fatal now s Tick Aborts
(* the peer answers again when the audio flows *)
| fatal_answer : forall rssi p st l, for_me p s = true -> content p = ScoResponse st l -> streams_to (source p) s ->
    fatal now s (Receive rssi p) Aborts
(* there is no handle left for a synchronous connection *)
| fatal_setup : forall o h c, asks_for_call o = Some h -> lookup (acls s) h = Some c -> ~ waits (acl_peer c) s -> no_handle s ->
    fatal now s o NeverReturns
| fatal_request : forall rssi p q cls, for_me p s = true -> content p = ScoRequest q cls -> ~ waits (source p) s -> no_handle s ->
    fatal now s (Receive rssi p) NeverReturns.

(** Neither data for several devices nor a request of a missing page of features *)
Definition calm_op (o : op) : Prop :=
  match o with
  | AclFromHost _ _ bc _ => bc = 0
  | Receive _ p => match content p with ExtendedFeaturesRequest n => n = 1 \/ n < lenN (lmp_features cfg) | _ => True end
  | _ => True
  end.
End Fatal.
