(** Vocabulary of the properties of periodic advertising synchronisation: what the host of
    an LE controller knows of its synchronisations from the statuses of its commands and
    from the events alone. Bluetooth Core, Vol 4, Part E 7.8.67-7.8.69, 7.7.65.14-7.7.65.16. *)
From Verif Require Import Prelude Address Rpa Table LeTypes LeAdvertise LeLists LeScan LeInitiate LeHost LeHistory LeListsSpec LeAdvertSpec LeFilterSpec LeLedgerSpec LeTimeSpec.
Open Scope N_scope.

(** A train of periodic advertising: who sends it, and the identifier of its set *)
Definition train : Type := peer_type * list N * N.
Definition train_of (i : address_with_type) (sid : N) : train :=
  (match awt_type i with PUBLIC_DEVICE | PUBLIC_IDENTITY => PEER_PUBLIC | RANDOM_DEVICE | RANDOM_IDENTITY => PEER_RANDOM end,
   awt_addr i, sid).

(** * The synchronisations of the host: handle and train, in the order they were made *)
Definition note_sync (l : list (N * train)) (e : event) : list (N * train) :=
  match e with EvSyncEstablished SUCCESS k sid i _ => l ++ [(k, train_of i sid)] | _ => l end.
Fixpoint syncs (h : list entry) : list (N * train) :=
  match h with
  | [] => []
  | e :: h =>
      match what e, status_of e with
      | Command Reset, _ => []
      | Command (TerminateSync k), Some SUCCESS => List.filter (fun y => negb (fst y =? k)) (syncs h)
      | _, _ => fold_left note_sync (notified (sent e)) (syncs h)
      end
  end.

(** * The synchronisation the host asked for and was not answered about *)

(** [None]: any train of the periodic advertiser list *)
Definition request : Type := option train.
Definition is_answer (e : event) : bool := match e with EvSyncEstablished _ _ _ _ _ => true | _ => false end.
Fixpoint pending (h : list entry) : option request :=
  match h with
  | [] => None
  | e :: h =>
      match what e, status_of e with
      | Command Reset, _ => None
      | Command (CreateSync use_list _ _ sid k a _ _), Some SUCCESS => Some (if use_list then None else Some (k, a, sid))
      | _, _ => if existsb is_answer (notified (sent e)) then None else pending h
      end
  end.
(** The train is one that the request asks for; [h] tells what is in the list *)
Definition asked_for (h : list entry) (r : request) (t : train) : Prop :=
  match r with Some x => x = t | None => padv_holds h t end.

(** Accepted requests and answers since the last Reset *)
Fixpoint requests (h : list entry) : N :=
  match h with
  | [] => 0
  | e :: h =>
      match what e, status_of e with
      | Command Reset, _ => 0
      | Command (CreateSync _ _ _ _ _ _ _ _), Some SUCCESS => 1 + requests h
      | _, _ => requests h
      end
  end.
Fixpoint sync_answers (h : list entry) : N :=
  match h with
  | [] => 0
  | e :: h => match what e with Command Reset => 0 | _ => lenN (List.filter is_answer (notified (sent e))) + sync_answers h end
  end.

(** * Masks: Vol 4, Part E, 7.3.1 and 7.8.1 *)

(** LE Periodic Advertising Sync Established is enabled *)
Definition hears_answers (h : list entry) : Prop := N.testbit (event_mask_of h) 61 = true /\ N.testbit (le_mask_of h) 13 = true.
(** LE Periodic Advertising Report is enabled *)
Definition hears_reports (h : list entry) : Prop := N.testbit (event_mask_of h) 61 = true /\ N.testbit (le_mask_of h) 14 = true.
(** The steps which can end a request *)
Definition ends_request (o : op) : bool :=
  match o with Receive (AirPeriodic _ _ _ _ _) | Command CancelSync => true | _ => false end.
Fixpoint hears_syncs (h : list entry) : Prop :=
  match h with
  | [] => True
  | e :: h => hears_syncs h /\ (ends_request (what e) = true -> hears_answers h)
  end.

(** No accepted request used the periodic advertiser list *)
Definition names_trains (h : list entry) : Prop :=
  forall e, In e h -> forall nr dup sid k a t c, what e = Command (CreateSync true nr dup sid k a t c) -> status_of e <> Some SUCCESS.

(** * What the controller has *)
Definition syncs_of (s : le) : list (N * train) :=
  map (fun kv => (fst kv, (sd_kind (snd kv), sd_address (snd kv), sd_sid (snd kv)))) (synced s).
Definition request_of (s : le) : option request :=
  option_map (fun y => if sy_use_list y then None else Some (sy_kind y, sy_address y, sy_sid y)) (syncing s).

(** The controller scans with the extended commands *)
Definition scanning (s : le) : Prop := scan_enabled (scan s) = true /\ extended_used s = true.
(** All CTE types excluded: there is nothing to synchronise with *)
Definition excludes_all (cte : N) : Prop := forall b, b < 5 -> N.testbit cte b = true.
(** The least handle that is not used *)
Definition least_unused (l : list N) (k : N) : Prop := ~ In k l /\ forall j, j < k -> In j l.
(** A report of periodic advertising *)
Definition reporting (x : output) : Prop := match x with Notified (EvPeriodicReport _ _ _) => True | _ => False end.
