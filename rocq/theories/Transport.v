(** Model of a controller whose host is at the other end of a socket:
    model/hci/h4_data_channel_packetizer.cc, model/hci/hci_socket_transport.cc,
    model/devices/hci_device.cc, model/devices/device.cc, net/posix/posix_async_socket.cc and
    the life of such a device in model/setup/test_model.cc.

    The dual mode controller behind is a set of oracles: any state, any answers. So is the
    operating system, as far as it is free: how many bytes a read gives, how many bytes a
    write takes. *)
From Verif Require Import Prelude H4.
Open Scope N_scope.

Inductive result (A : Type) := Ok (a : A) | Abort | OutOfBounds | Hang.
Arguments Ok {A}. Arguments Abort {A}. Arguments OutOfBounds {A}. Arguments Hang {A}.

(** What send(2) does with a buffer: it takes at most [n] of its bytes, or returns -1 *)
Inductive taken := Takes (n : nat) | Refuses.

(** What went wrong with a connection: ECONNRESET, or another error than EAGAIN *)
Inductive broken_by := ConnectionReset | OtherError.

Inductive output :=
| Handed (d : delivery)              (* a packet given to the controller *)
| Offered (t : N) (data : list N)    (* a packet of the controller that is written *)
| Dropped (t : N) (data : list N)    (* a packet of the controller that is not *)
| Took (b : list N)                  (* bytes on their way to the host *)
| Removed.                           (* the device leaves the simulation *)

Section Device.
Variables (W : Type)
  (handle : delivery -> W -> W * list (N * list N)) (* DualModeController::HandleCommand, HandleAcl, HandleSco, HandleIso: the packets sent to the host, with their type *)
  (work : W -> W * list (N * list N))               (* DualModeController::Tick *)
  (shut : W -> W * list (N * list N)).              (* the Close of the two controllers, dual_mode_controller.cc:94-95 *)
Variables
  (gives : nat -> nat)      (* the bytes that the n-th read gives, if there are as many *)
  (takes : nat -> nat -> taken) (* what the n-th write takes, given the size of the buffer *)
  (stale : nat -> bool).    (* errno happens to be EAGAIN when the n-th peek finds the end of the stream *)

Record device := Dev {
  world : W;
  h4 : parser;
  opened : bool;                (* fd_ is not -1 *)
  inbox : list N;               (* sent by the host, not read *)
  ended : bool;                 (* the host has closed its end *)
  broken : option broken_by;
  reads : nat; writes : nat; peeks : nat; (* the calls so far, for the oracles *)
  scheduled : nat;              (* calls of OnConnectionClosed that wait in the task manager *)
  present : bool }.             (* in TestModel::phy_devices_ *)

Definition with_world (w : W) (d : device) : device :=
  Dev w (h4 d) (opened d) (inbox d) (ended d) (broken d) (reads d) (writes d) (peeks d) (scheduled d) (present d).
Definition with_wrote (n : nat) (d : device) : device :=
  Dev (world d) (h4 d) (opened d) (inbox d) (ended d) (broken d) (reads d) (writes d + n) (peeks d) (scheduled d) (present d).
Definition with_peeked (d : device) : device :=
  Dev (world d) (h4 d) (opened d) (inbox d) (ended d) (broken d) (reads d) (writes d) (S (peeks d)) (scheduled d) (present d).
Definition with_read (p : parser) (b : list N) (d : device) : device :=
  Dev (world d) p (opened d) b (ended d) (broken d) (S (reads d)) (writes d) (peeks d) (scheduled d) (present d).

(** hci_device.cc:31-100: a new device, its transport and its callbacks; the packetizer has
    recovery enabled (h4_data_channel_packetizer.cc:40) *)
Definition new_device (w : W) : device := Dev w (init true) true [] false None 0 0 0 0 true.

(** posix_async_socket.cc:103-115. The peek finds a byte, or EAGAIN, or the end of the stream
    or an error, with an errno that may be an old one. *)
Definition connected (d : device) : bool :=
  opened d &&
  match inbox d, ended d, broken d with
  | _, _, Some _ => false
  | _ :: _, _, None => true
  | [], false, None => true
  | [], true, None => stale (peeks d)
  end.

(** posix_async_socket.cc:84-101: the bytes that reach the host *)
Definition write (n : nat) (b : list N) : list N :=
  match takes n (List.length b) with Takes k => firstn k b | Refuses => [] end.

(** h4_data_channel_packetizer.cc:43-60 and hci_socket_transport.cc:57-64: two writes, of
    which the results are only logged *)
Definition send (t : N) (data : list N) (d : device) : device * list output :=
  let d' := with_peeked d in
  if connected d then
    (with_wrote 2 d', [Offered t data; Took (write (writes d) [t]); Took (write (S (writes d)) data)])
  else (d', [Dropped t data]).
Fixpoint send_all (l : list (N * list N)) (d : device) : device * list output :=
  match l with
  | [] => (d, [])
  | (t, data) :: l =>
      let (d, o) := send t data d in
      let (d, o') := send_all l d in (d, o ++ o')
  end.

(** posix_async_socket.cc:117-138, dual_mode_controller.cc:93-97, device.cc:42-46,
    test_model.cc:208-211; hci_device.cc:107-110 *)
Definition close (d : device) : device * list output :=
  let d := Dev (world d) (h4 d) false (inbox d) (ended d) (broken d) (reads d) (writes d) (peeks d) (scheduled d) (present d) in
  let (w, l) := shut (world d) in
  let (d, o) := send_all l (with_world w d) in
  (Dev (world d) (h4 d) (opened d) (inbox d) (ended d) (broken d) (reads d) (writes d) (peeks d) (S (scheduled d)) (present d), o).

(** hci_socket_transport.cc:26-53 and hci_device.cc:75-97 *)
Definition dispatch (x : delivery) (d : device) : result (device * list output) :=
  match x with
  | ToEvent _ => Abort
  | _ =>
      let (w, l) := handle x (world d) in
      let (d, o) := send_all l (with_world w d) in Ok (d, Handed x :: o)
  end.
Fixpoint dispatch_all (l : list delivery) (d : device) : result (device * list output) :=
  match l with
  | [] => Ok (d, [])
  | x :: l =>
      match dispatch x d with
      | Ok (d, o) =>
          match dispatch_all l d with
          | Ok (d, o') => Ok (d, o ++ o')
          | r => r
          end
      | r => r
      end
  end.

(** h4_data_channel_packetizer.cc:62-92 with posix_async_socket.cc:67-82. A read of no bytes
    returns 0, as at the end of the stream. *)
Fixpoint on_data_ready (fuel : nat) (d : device) : result (device * list output) :=
  match fuel with
  | O => Hang
  | S fuel =>
      if negb (opened d) then Ok (close d)
      else if bytes_requested (h4 d) =? 0 then Ok (close d)
      else
        match broken d with
        | Some ConnectionReset => Ok (close d)
        | Some OtherError => Abort
        | None =>
            match inbox d with
            | [] => if ended d then Ok (close d) else Ok (d, [])
            | _ =>
                let n := Nat.min (Nat.max 1 (gives (reads d))) (N.to_nat (bytes_requested (h4 d))) in
                match consume (h4 d) (firstn n (inbox d)) with
                | Fatal => Abort
                | Undefined => OutOfBounds
                | Done _ p l =>
                    match dispatch_all l (with_read p (skipn n (inbox d)) d) with
                    | Ok (d, o) =>
                        match on_data_ready fuel d with
                        | Ok (d, o') => Ok (d, o ++ o')
                        | r => r
                        end
                    | r => r
                    end
                end
            end
        end
  end.

(** hci_device.cc:102-105; the loop reads at least one byte in each turn *)
Definition tick (d : device) : result (device * list output) :=
  match on_data_ready (S (List.length (inbox d))) d with
  | Ok (d, o) =>
      let (w, l) := work (world d) in
      let (d, o') := send_all l (with_world w d) in Ok (d, o ++ o')
  | r => r
  end.

(** test_model.cc:215-220: the tasks of the user are cancelled, the device is removed *)
Definition on_connection_closed (d : device) : device * list output :=
  if present d then
    (Dev (world d) (h4 d) (opened d) (inbox d) (ended d) (broken d) (reads d) (writes d) (peeks d) 0 false, [Removed])
  else
    (Dev (world d) (h4 d) (opened d) (inbox d) (ended d) (broken d) (reads d) (writes d) (peeks d) (Nat.pred (scheduled d)) (present d), []).

(** The host writes, closes its end, or the connection breaks; the simulation ticks
    (test_model.cc:260-264); a scheduled task runs *)
Inductive op :=
| HostWrites (b : list N)
| HostCloses
| Breaks (e : broken_by)
| Tick
| RunTask.

Definition step (d : device) (o : op) : result (device * list output) :=
  match o with
  | HostWrites b =>
      if ended d || negb (opened d) then Ok (d, [])
      else Ok (Dev (world d) (h4 d) (opened d) (inbox d ++ b) (ended d) (broken d) (reads d) (writes d) (peeks d) (scheduled d) (present d), [])
  | HostCloses =>
      Ok (Dev (world d) (h4 d) (opened d) (inbox d) true (broken d) (reads d) (writes d) (peeks d) (scheduled d) (present d), [])
  | Breaks e =>
      Ok (Dev (world d) (h4 d) (opened d) (inbox d) (ended d) (Some e) (reads d) (writes d) (peeks d) (scheduled d) (present d), [])
  | Tick => if present d then tick d else Ok (d, [])
  | RunTask => match scheduled d with O => Ok (d, []) | S _ => Ok (on_connection_closed d) end
  end.

(** The operations in the order in which they happen, with all that can be seen *)
Fixpoint steps (d : device) (l : list op) : result (device * list output) :=
  match l with
  | [] => Ok (d, [])
  | o :: l =>
      match step d o with
      | Ok (d, out) =>
          match steps d l with
          | Ok (d, out') => Ok (d, out ++ out')
          | r => r
          end
      | r => r
      end
  end.
End Device.
