(** Vocabulary of the properties of LE scan and connection parameters (Bluetooth
    Core, Vol 4, Part E 7.8.10, 7.8.12, 7.8.64, 7.8.66): the parameters a history of
    commands put in force, and what the specification requires of them. *)
From Verif Require Import Prelude Address Rpa Table LeTypes LeScan LeHost LeHistory.
Open Scope N_scope.

(** The element of a parameter array that belongs to the PHY of bit [i]: there is one
    for each bit set in [phys], in the order of the bits. *)
Definition supplied {A} (phys i : N) (l : list A) : option A :=
  if N.testbit phys i
  then nth_error l (length (filter (fun k => N.testbit phys (N.of_nat k)) (seq 0 (N.to_nat i))))
  else None.

(** * Scanning *)

(** The parameters given for the PHY of bit [i] (0: 1M, 2: coded) by the latest accepted
    command since the last reset *)
Fixpoint scan_given (i : N) (h : list entry) : option scan_phy_param :=
  match h with
  | [] => None
  | e :: h =>
      match what e, status_of e with
      | Command Reset, _ => None
      | Command (SetScanParameters k interval window _ _), Some SUCCESS =>
          if i =? 0 then Some (k, interval, window) else None
      | Command (SetExtScanParameters _ _ phys l), Some SUCCESS => supplied phys i l
      | _, _ => scan_given i h
      end
  end.

(** The parameters in force for a PHY *)
Definition scan_in_force (p : scan_phy) : option scan_phy_param :=
  if sp_enabled p then Some (sp_kind p, sp_interval p, sp_window p) else None.

(** No accepted command included the 2M PHY, on which scanning is not defined *)
Definition never_2m (h : list entry) : Prop :=
  forall e o pol phys l, In e h -> what e = Command (SetExtScanParameters o pol phys l) ->
  status_of e = Some SUCCESS -> N.testbit phys 1 = false.

(** * Initiating *)

(** The ranges of the parameters, and the rule on the supervision timeout; intervals
    are in units of 1.25 ms and the timeout in units of 10 ms. The rule is stated in
    microseconds; [cmp] is [<] in the specification. *)
Definition link_rule (cmp : N -> N -> Prop) (p : init_phy) : Prop :=
  cmp ((1 + ip_latency p) * (1250 * ip_interval_max p) * 2) (10000 * ip_supervision p).
Definition in_range (p : init_phy) : Prop :=
  4 <= ip_scan_window p /\ ip_scan_window p <= ip_scan_interval p /\ ip_scan_interval p <= 16384
  /\ 6 <= ip_interval_min p /\ ip_interval_min p <= ip_interval_max p /\ ip_interval_max p <= 3200
  /\ ip_latency p <= 499 /\ 10 <= ip_supervision p /\ ip_supervision p <= 3200.

(** The parameters given for the PHY of bit [i] by the latest accepted command *)
Fixpoint init_given (i : N) (h : list entry) : option init_phy :=
  match h with
  | [] => None
  | e :: h =>
      match what e, status_of e with
      | Command Reset, _ => None
      | Command (CreateConnection _ _ _ p), Some SUCCESS => if i =? 0 then Some p else None
      | Command (ExtCreateConnection _ _ _ phys l), Some SUCCESS => supplied phys i l
      | _, _ => init_given i h
      end
  end.

Definition init_phy_of (i : initiator) (k : N) : init_phy :=
  if k =? 0 then init_1m i else if k =? 1 then init_2m i else init_coded i.

(** The numeric parameters *)
Definition numbers (p : init_phy) : list N :=
  [ip_scan_interval p; ip_scan_window p; ip_interval_min p; ip_interval_max p; ip_latency p;
   ip_supervision p; ip_min_ce p; ip_max_ce p].
Definition init_in_force (p : init_phy) : option (list N) := if ip_enabled p then Some (numbers p) else None.
