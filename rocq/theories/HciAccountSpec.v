(** What becomes of each packet of the host, without exceptions. *)
From Verif Require Import Prelude HciTables Hci HciSpec.
Open Scope N_scope.

(** The effects that settle a command: an answer, the command handed over or sent back,
    an error, or the vendor event that stands for an answer *)
Definition settles (e : effect) : bool :=
  match e with
  | Event (CommandComplete _ _ _) | Event (CommandStatus _ _ _) | Event (LoopbackCommand _)
  | Event (HardwareError _) | Event (VendorSpecific _) | ToLinkManager _ | ToLinkLayer _ => true
  | _ => false
  end.

Definition settled (l : list effect) : list effect := filter settles l.

(** The effect [e] settles the command [p] the way it must, in the loopback mode [m], after
    a reset or not *)
Definition settled_well (c : config) (m : N) (after_reset : bool) (p : list N) (e : effect) : Prop :=
  match e with
  | Event (CommandComplete n op _) | Event (CommandStatus _ n op) => n = 1 /\ op = opcode p
  | Event (LoopbackCommand q) => q = p /\ m = 1 /\ ~ In (opcode p) never_looped
  | Event (HardwareError n) =>
      n = 0x42 /\ error_before_reset c = true /\ after_reset = false /\ opcode p <> 0x0c03
      \/ n = 0x43 /\ tolerant c = true
  | Event (VendorSpecific _) => opcode p = CSR_COMMAND /\ has_csr c = true
  | ToLinkManager q => q = p /\ In (opcode p) for_link_manager
  | ToLinkLayer q => q = p /\ (In (opcode p) for_link_layer \/ ends_stream p)
  | _ => False
  end.

(** The answers due after a history: one for each command but those settled otherwise *)
Definition is_answer (e : effect) : bool :=
  match e with Event (CommandComplete _ _ _) | Event (CommandStatus _ _ _) => true | _ => false end.

Fixpoint due (h : list (input * list effect)) : list (N * N) :=
  match h with
  | [] => []
  | (Command p, l) :: h' => (if existsb is_answer l then [(opcode p, 1)] else []) ++ due h'
  | _ :: h' => due h'
  end.

(** The commands received, and those settled *)
Definition commands_in (h : list (input * list effect)) : list (list N) :=
  flat_map (fun e => match fst e with Command p => [p] | _ => [] end) h.
Definition settled_in (h : list (input * list effect)) : list effect :=
  flat_map (fun e => match fst e with Command _ => settled (snd e) | _ => [] end) h.
