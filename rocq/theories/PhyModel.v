(** The test model: devices, physical channels, generated addresses, timer.

    Models model/setup/test_model.cc, model/setup/phy_layer.cc and
    model/setup/phy_device.cc. *)
From Verif Require Import Prelude Table.
Open Scope N_scope.

Inductive phy_type := LowEnergy | BrEdr.
Definition phy_eqb (a b : phy_type) : bool :=
  match a, b with LowEnergy, LowEnergy | BrEdr, BrEdr => true | _, _ => false end.

(** PhyLayer (phy_layer.h 29-57): its type and the std::list of devices, by
    identifier. Identifiers stand for PhyDevice objects: each Device is assumed
    to be added to the model once (Device identifiers come from a counter,
    device.cc 31-36; its 2^32 wrap-around is not modelled). *)
Record layer := { ltype : phy_type; members : list N }.

(** PhyDevice (phy_device.h 30-57): the address of its Device and the set of
    layers it is attached to. The C++ set holds raw pointers; an identifier not
    in the layer table is a dangling pointer. *)
Record device := { addr : list N; attached : list N }.

(** TestModel (test_model.h 105-130). [next_dev] is the Device counter and
    [next_phy] the static counter in AddPhy. *)
Record model := {
  next_dev : N; next_phy : N; prefix : list N; reuse : bool;
  layers : table layer; devices : table device }.

Definition init (p : list N) : model :=
  {| next_dev := 0; next_phy := 0; prefix := p; reuse := true; layers := []; devices := [] |}.

Definition with_tables (s : model) (l : table layer) (d : table device) : model :=
  {| next_dev := next_dev s; next_phy := next_phy s; prefix := prefix s; reuse := reuse s; layers := l; devices := d |}.

(** ** Attaching and detaching *)

(** PhyLayer::Register (phy_layer.cc 25-28): no check for duplicates. *)
Definition register (s : model) (l d : N) : model :=
  match lookup (layers s) l, lookup (devices s) d with
  | Some ly, Some dv =>
      with_tables s
        (put (layers s) l {| ltype := ltype ly; members := members ly ++ [d] |})
        (put (devices s) d {| addr := addr dv; attached := set_insert l (attached dv) |})
  | _, _ => s
  end.

(** The device forgets a layer (PhyDevice::Unregister, phy_device.cc 34). *)
Definition forget (ds : table device) (d l : N) : table device :=
  match lookup ds d with
  | Some dv => put ds d {| addr := addr dv; attached := set_erase l (attached dv) |}
  | None => ds
  end.

(** PhyLayer::Unregister (phy_layer.cc 30-38): std::list::remove removes every
    occurrence of the device. *)
Definition unregister (s : model) (l d : N) : model :=
  match lookup (layers s) l with
  | Some ly =>
      if mem d (members ly) then
        with_tables s (put (layers s) l {| ltype := ltype ly; members := set_erase d (members ly) |})
                      (forget (devices s) d l)
      else s
  | None => s
  end.

(** PhyLayer::UnregisterAll (phy_layer.cc 40-45) *)
Definition unregister_all (s : model) (l : N) : model :=
  match lookup (layers s) l with
  | Some ly => with_tables s (put (layers s) l {| ltype := ltype ly; members := [] |})
                 (fold_left (fun ds d => forget ds d l) (members ly) (devices s))
  | None => s
  end.

(** ** Generated addresses *)

(** GenerateBluetoothAddress (test_model.cc 93-118). Address bytes are stored
    least significant first. *)
Definition candidate (p : list N) (b0 : N) : list N :=
  [b0 mod 256; b0 / 256; nth 3 p 0; nth 2 p 0; nth 1 p 0; nth 0 p 0].

Fixpoint first_unused (p : list N) (used : list (list N)) (fuel : nat) (b0 : N) : option (list N) :=
  match fuel with
  | O => None
  | S f => if existsb (list_eqb (candidate p b0)) used then first_unused p used f (b0 + 1)
           else Some (candidate p b0)
  end.

(** [None] when every candidate is used: the 16 bit counter wraps around and
    the loop never ends. When addresses are not reused, the address is derived
    from the identifier of the new device and not compared with others. *)
Definition generate_below (n : N) (s : model) : option (list N) :=
  first_unused (prefix s) (map addr (values (devices s))) (N.to_nat n) 0.
Definition generate (s : model) : option (list N) :=
  if reuse s then generate_below 65536 s else Some (candidate (prefix s) (next_dev s mod 65536)).

(** ** Operations *)

(** AddDevice (121-126) of a new Device with address [a]. *)
Definition add_device (s : model) (a : list N) : model :=
  {| next_dev := next_dev s + 1; next_phy := next_phy s; prefix := prefix s; reuse := reuse s; layers := layers s;
     devices := put (devices s) (next_dev s) {| addr := a; attached := [] |} |}.

(** RemoveDevice (129-134) *)
Definition remove_device (s : model) (d : N) : model :=
  let s1 := fold_left (fun s l => unregister s l d) (keys (layers s)) s in
  with_tables s1 (layers s1) (erase (devices s1) d).

(** AddPhy (137-142). The wrap-around of the 32 bit counter is not modelled. *)
Definition add_phy (s : model) (ty : phy_type) : model :=
  {| next_dev := next_dev s; next_phy := next_phy s + 1; prefix := prefix s; reuse := reuse s;
     layers := put (layers s) (next_phy s) {| ltype := ty; members := [] |}; devices := devices s |}.

(** RemovePhy (145-150) *)
Definition remove_phy (s : model) (l : N) : model :=
  let s1 := unregister_all s l in with_tables s1 (erase (layers s1) l) (devices s1).

(** The layers of a given type, or all of them. *)
Definition layers_of (s : model) (ty : option phy_type) : list N :=
  keys (filter (fun e => match ty with Some t => phy_eqb (ltype (snd e)) t | None => true end) (layers s)).

Inductive op :=
| AddDevice (a : list N)
| AddLinkLayer (a : list N) (ty : phy_type)   (* AddLinkLayerConnection 167-184 *)
| AddHci (a : option (list N))                (* AddHciConnection 194-213 *)
| RemoveDevice (d : N)                        (* also OnConnectionClosed 215-220 *)
| AddPhy (ty : phy_type)
| RemovePhy (l : N)
| AddToPhy (d l : N)                          (* AddDeviceToPhy 153-158 *)
| RemoveFromPhy (d l : N)                     (* RemoveDeviceFromPhy 161-165 *)
| SetAddress (d : N) (a : list N)             (* SetDeviceAddress 222-226 *)
| SetReuse (b : bool)                         (* SetReuseDeviceAddresses, test_model.h 58-60 *)
| Reset.                                      (* the task run by Reset 266-275 *)

(** [None]: the operation never returns. *)
Definition step (s : model) (o : op) : option model :=
  match o with
  | AddDevice a => Some (add_device s a)
  | AddLinkLayer a ty =>
      let d := next_dev s in
      Some (fold_left (fun s l => register s l d) (layers_of s (Some ty)) (add_device s a))
  | AddHci a =>
      let d := next_dev s in
      (* the argument of value_or is evaluated even when an address is given *)
      match generate s with
      | Some g =>
          let a := match a with Some a => a | None => g end in
          Some (fold_left (fun s l => register s l d) (layers_of s None) (add_device s a))
      | None => None
      end
  | RemoveDevice d => Some (remove_device s d)
  | AddPhy ty => Some (add_phy s ty)
  | RemovePhy l => Some (remove_phy s l)
  | AddToPhy d l => Some (register s l d)
  | RemoveFromPhy d l => Some (unregister s l d)
  | SetAddress d a =>
      match lookup (devices s) d with
      | Some dv => Some (with_tables s (layers s) (put (devices s) d {| addr := a; attached := attached dv |}))
      | None => Some s
      end
  | SetReuse b =>
      Some {| next_dev := next_dev s; next_phy := next_phy s; prefix := prefix s; reuse := b;
              layers := layers s; devices := devices s |}
  | Reset =>
      let s1 := fold_left unregister_all (keys (layers s)) s in
      Some (with_tables s1 (layers s1) [])
  end.

Fixpoint run (s : model) (ops : list op) : option model :=
  match ops with
  | [] => Some s
  | o :: ops => match step s o with Some s1 => run s1 ops | None => None end
  end.

(** ** Sending *)

(** PhyDevice::Send and PhyLayer::Send (phy_device.cc 58-64, phy_layer.cc 57-65):
    the receivers, in order. [None] is undefined behaviour: a dangling layer
    pointer, or a Device whose PhyDevice is gone. That receivers drop packets
    that do not parse (phy_device.cc 46-56) is left out. *)
Fixpoint deliver (s : model) (d : N) (ty : phy_type) (ls : list N) : option (list N) :=
  match ls with
  | [] => Some []
  | l :: ls =>
      match lookup (layers s) l, deliver s d ty ls with
      | Some ly, Some rest =>
          Some ((if phy_eqb (ltype ly) ty then set_erase d (members ly) else []) ++ rest)
      | _, _ => None
      end
  end.
Definition send (s : model) (d : N) (ty : phy_type) : option (list N) :=
  match lookup (devices s) d with
  | Some dv => deliver s d ty (attached dv)
  | None => None
  end.

(** ** The timer *)

(** StartTimer, StopTimer and SetTimerPeriod (60-82). [ticking]: the periodic
    tasks alive in the task manager, with their period; [task]: the identifier
    the model remembers (0 if none). *)
Record timer := { task : N; period : N; ticking : table N; next_task : N }.
Definition timer_init : timer := {| task := 0; period := 0; ticking := []; next_task := 1 |}.
Inductive timer_op := StartTimer | StopTimer | SetPeriod (p : N).
Definition start_timer (t : timer) : timer :=
  {| task := next_task t; period := period t; ticking := put (ticking t) (next_task t) (period t);
     next_task := next_task t + 1 |}.
Definition stop_timer (t : timer) : timer :=
  {| task := 0; period := period t; ticking := erase (ticking t) (task t); next_task := next_task t |}.
Definition timer_step (t : timer) (o : timer_op) : timer :=
  match o with
  | StartTimer => start_timer t
  | StopTimer => stop_timer t
  | SetPeriod p =>
      let t1 := {| task := task t; period := p; ticking := ticking t; next_task := next_task t |} in
      if task t =? 0 then t1 else start_timer (stop_timer t1)
  end.
