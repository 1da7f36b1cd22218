(** The search for devices of a BR/EDR controller, told from its history: which inquiry is
    running, the packets it sends, and what a device in range answers. *)
From Verif Require Import Prelude Table Sco Bredr BredrBase BredrSpec BredrPairSpec.
Open Scope N_scope.

(** * One controller *)
(** An inquiry: its access code, when it was accepted, the time of its next packet and of its
    end. A packet is sent every two seconds; the length counts units of 1.28 s. *)
Record search := Search { code : N; begun : N; next_at : N; ends_at : N }.
Definition second : N := 1000000.

(** The inquiry that is running after the history *)
Fixpoint searching (h : list entry) : option search :=
  match h with
  | [] => None
  | e :: h =>
      match what e with
      | Command (Inquire lap len _) =>
          if succeeded (status_of e) then Some (Search lap (at_time e) (at_time e + 2 * second) (at_time e + len * 1280000)) else searching h
      | Command InquiryCancel => if succeeded (status_of e) then None else searching h
      | Command Reset => None
      | Tick =>
          match searching h with
          | None => None
          | Some f =>
              if ends_at f <=? at_time e then None
              else if next_at f <=? at_time e then Some (Search (code f) (begun f) (at_time e + 2 * second) (ends_at f))
              else Some f
          end
      | _ => searching h
      end
  end.

(** The inquiry mode: the last one written since the last reset *)
Fixpoint mode_set (h : list entry) : N :=
  match h with
  | [] => 0
  | e :: h => match what e with Command (WriteInquiryMode n) => n | Command Reset => 0 | _ => mode_set h end
  end.

(** The packets the inquiries ask for: when, with which mode and access code; the first one
    first *)
Record probe := Probe { asked_at : N; asked_mode : N; asked_code : N }.
Fixpoint probes (h : list entry) : list probe :=
  match h with
  | [] => []
  | e :: h =>
      probes h ++
      match what e, searching h with
      | Tick, Some f =>
          if ends_at f <=? at_time e then []
          else if next_at f <=? at_time e then [Probe (at_time e) (mode_set h) (code f)]
          else []
      | _, _ => []
      end
  end.
Definition probe_packet (own : addr) (p : probe) : air := Air own empty_address (InquiryPacket (asked_mode p) (asked_code p)).

Definition is_inquiry (p : air) : bool := match content p with InquiryPacket _ _ => true | _ => false end.
(** The inquiry packets sent during the history, the first one first *)
Definition inquiries_sent (h : list entry) : list air := flat_map (fun e => filter is_inquiry (packets (sent e))) (rev h).

(** HCI Inquiry Complete events *)
Definition is_complete (o : output) : bool := match o with Event (InquiryComplete _) => true | _ => false end.
Definition finishes (e : entry) : nat := List.length (filter is_complete (sent e)).
(** Inquiries that were accepted, and those that were stopped by the host *)
Definition sum (f : entry -> nat) (h : list entry) : nat := fold_right (fun e n => (f e + n)%nat) 0%nat h.
Definition starts (e : entry) : nat :=
  match what e with Command (Inquire _ _ _) => if succeeded (status_of e) then 1%nat else 0%nat | _ => 0%nat end.
Fixpoint stopped (h : list entry) : nat :=
  match h with
  | [] => 0%nat
  | e :: h =>
      (stopped h + match what e with
       | Command InquiryCancel => if succeeded (status_of e) then 1 else 0
       | Command Reset => match searching h with Some _ => 1 | None => 0 end
       | _ => 0
       end)%nat
  end.
Definition in_progress (h : list entry) : nat := match searching h with Some _ => 1%nat | None => 0%nat end.
(** The host keeps the event HCI Inquiry Complete *)
Definition keeps_complete (e : entry) : Prop := match what e with Command (SetEventMask n) => N.testbit n 0 = true | _ => True end.

(** Two consecutive packets are two seconds apart *)
Fixpoint spaced (l : list probe) : Prop :=
  match l with
  | x :: ((y :: _) as r) => asked_at x + 2 * second <= asked_at y /\ spaced r
  | _ => True
  end.

(** * Two controllers *)
(** What a device with the given class and data answers to an inquiry with a mode, when it
    heard it with a strength *)
Definition found (b : addr) (cls : N) (data : list N) (mode rssi : N) : list event :=
  if mode =? 0 then [InquiryResult 0 b 0 cls 0 0 []]
  else if mode =? 1 then [InquiryResult 1 b 0 cls 0 rssi []]
  else if mode =? 2 then [InquiryResult 2 b 0 cls 0 rssi data]
  else [].

Section Found.
Variables (a b : addr).
(** [b] is visible with these access codes, class and data, or it is not visible *)
Variables (visible : bool) (codes : list N) (cls : N) (data : list N).
(** The settings of [b], and the events of the results are enabled for [a] *)
Definition in_sight (w : world) : Prop :=
  inquiry_scan_enable (right w) = visible /\ iac (right w) = codes /\ class (right w) = cls /\ eir (right w) = data /\
  unmasked (left w) 0x02 = true /\ unmasked (left w) 0x22 = true.

(** The inquiry packets of [a] that [b] has heard, with the strength *)
Definition hears_inquiry (e : entry) : list (N * air) :=
  match what e with
  | Receive rssi p => if list_eqb (source p) a && is_inquiry p then [(rssi, p)] else []
  | _ => []
  end.
Definition inquiries_heard (h : list entry) : list (N * air) := flat_map hears_inquiry (rev h).
(** What [a] must be told of them *)
Definition answer (x : N * air) : list event :=
  match content (snd x) with
  | InquiryPacket mode lap => if visible && existsb (N.eqb lap) codes then found b cls data mode (fst x) else []
  | _ => []
  end.

(** The results about [b] that [a] is told *)
Definition is_result (e : event) : bool := match e with InquiryResult _ x _ _ _ _ _ => list_eqb x b | _ => false end.
Definition results_in (out : list output) : list event :=
  flat_map (fun o => match o with Event e => if is_result e then [e] else [] | _ => [] end) out.
Definition results (h : list entry) : list event := flat_map (fun e => results_in (sent e)) (rev h).
(** The results that the answers on their way will make *)
Definition by_answer (p : air) : list event :=
  match content p with
  | InquiryAnswer mode rep c off r d =>
      if list_eqb (source p) b then
        if mode =? 0 then [InquiryResult 0 b rep c off 0 []]
        else if mode =? 1 then [InquiryResult 1 b rep c off r []]
        else if mode =? 2 then [InquiryResult 2 b rep c off r d]
        else []
      else []
  | _ => []
  end.
Definition to_be_told (w : world) : list event := flat_map by_answer (way_left a w).
Definition still_asked (w : world) : list air := filter is_inquiry (way_right b w).
End Found.
