(** Vocabulary of the properties about the end of advertising and scanning, and about
    advertising reports (Bluetooth Core, Vol 4, Part E 7.7.65.13, 7.7.65.15, 7.8.11,
    7.8.56, 7.8.65). *)
From Verif Require Import Prelude Address Rpa Table LeTypes LeAdvertise LeHost LeHistory LeFilterSpec.
Open Scope N_scope.

(** When the set [x] was last enabled since the last reset, and what was asked for it:
    its duration is in units of 10 ms, a duration or a number of events of 0 is no limit *)
Fixpoint enabled_by (x : N) (h : list entry) : option (N * enabled_set) :=
  match h with
  | [] => None
  | e :: h =>
      match what e, status_of e with
      | Command Reset, _ => None
      | Command (SetExtEnable true l), Some SUCCESS =>
          match find (fun d => en_handle d =? x) l with
          | Some d => Some (at_time e, d)
          | None => enabled_by x h
          end
      | _, _ => enabled_by x h
      end
  end.

(** When legacy advertising was last enabled *)
Fixpoint legacy_enabled_at (h : list entry) : option N :=
  match h with
  | [] => None
  | e :: h =>
      match what e, status_of e with
      | Command Reset, _ => None
      | Command (SetAdvEnable true), Some SUCCESS => Some (at_time e)
      | _, _ => legacy_enabled_at h
      end
  end.

(** The advertising packets among the outputs *)
Definition is_advert (o : output) : bool :=
  match o with Sent (AirLegacy _ _ _ _) | Sent (AirExtended _ _ _ _ _ _ _ _ _ _ _) => true | _ => false end.
Definition adverts (out : list output) : N := lenN (filter is_advert out).
Fixpoint adverts_sent (h : list entry) : N :=
  match h with [] => 0 | e :: h => adverts (sent e) + adverts_sent h end.

(** The advertising events the host asked for *)
Definition asked (l : list enabled_set) : N := fold_right (fun e n => en_max e + n) 0 l.
Fixpoint events_asked (h : list entry) : N :=
  match h with
  | [] => 0
  | e :: h =>
      match what e, status_of e with
      | Command (SetExtEnable true l), Some SUCCESS => asked l
      | _, _ => 0
      end + events_asked h
  end.

(** Every set is enabled with a number of events (one byte), legacy advertising is not used *)
Definition limited (e : entry) : Prop :=
  match what e with
  | Command (SetAdvEnable _) => False
  | Command (SetExtEnable true l) => forall d, In d l -> 0 < en_max d <= 255
  | _ => True
  end.

(** How scanning was last enabled: when, the duplicate filter, the duration (in units of
    10 ms) and the period (in units of 1.28 s, 0 when there is none) *)
Record scan_order := ScanOrder { so_time : N; so_duplicates : duplicates; so_duration : N; so_period : N }.
Fixpoint scan_given (h : list entry) : option scan_order :=
  match h with
  | [] => None
  | e :: h =>
      match what e, status_of e with
      | Command Reset, _ => None
      | Command (SetScanEnable on dups), Some SUCCESS =>
          if on then Some (ScanOrder (at_time e) (if dups then DUP_ENABLED else DUP_DISABLED) 0 0) else None
      | Command (SetExtScanEnable on d duration period), Some SUCCESS =>
          if on then Some (ScanOrder (at_time e) d duration (if duration =? 0 then 0 else period)) else None
      | _, _ => scan_given h
      end
  end.

Definition stops_scanning (o : op) (st : option status) : Prop :=
  match o, st with
  | Command Reset, _ => True
  | Command (SetScanEnable false _), Some SUCCESS | Command (SetExtScanEnable false _ _ _), Some SUCCESS => True
  | _, _ => False
  end.

(** Was the packet received, and was it reported, since scanning was last enabled? *)
Definition has_report (out : list output) : Prop := exists ev, In (Notified ev) out /\ reported ev <> None.
Fixpoint since_scanning (P : entry -> Prop) (h : list entry) : Prop :=
  match h with
  | [] => False
  | e :: h =>
      match what e, status_of e with
      | Command Reset, _ => False
      | Command (SetScanEnable _ _), Some SUCCESS | Command (SetExtScanEnable _ _ _ _), Some SUCCESS => False
      | _, _ => P e \/ since_scanning P h
      end
  end.
Definition received (p : air) (e : entry) : Prop := what e = Receive p.
Definition reported_to_host (p : air) (e : entry) : Prop := what e = Receive p /\ has_report (sent e).

(** The reports of one packet: is there more to come, and the data *)
Definition extended_pieces (out : list output) : list (bool * list N) :=
  flat_map (fun o => match o with Notified (EvExtendedReport _ _ _ _ _ more _ _ d) => [(more, d)] | _ => [] end) out.
Definition periodic_pieces (sync : N) (out : list output) : list (bool * list N) :=
  flat_map (fun o => match o with Notified (EvPeriodicReport k more d) => if k =? sync then [(more, d)] else [] | _ => [] end) out.
(** The pieces make the whole data, every one but the last is said to be followed by
    another, none is longer than [max] *)
Definition whole (max : N) (data : list N) (l : list (bool * list N)) : Prop :=
  concat (map snd l) = data /\ Forall (fun p => lenN (snd p) <= max) l
  /\ exists first last, l = first ++ [(false, last)] /\ Forall (fun p => fst p = true) first.
