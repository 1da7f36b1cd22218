(** The server: the threads of a simulator that serves clients on sockets.

    Models desktop/test_environment.cc, desktop/root_canal_main.cc 105-109,
    net/posix/posix_async_socket_server.cc, the closing of the test channel
    (model/setup/test_channel_transport.cc 43-71) and the part of
    model/setup/test_model.cc that adds the devices of clients and removes them.
    The simulation itself is the one of PhyModel.v and the commands of the test
    channel are those of TestCommand.v.

    Three threads act: the main thread, which sets the servers up; the thread
    that watches descriptors, which accepts clients and reads commands; and the
    thread that runs tasks. A use of the simulation or of the function that
    sends the answers takes place between two events, so that the uses of two
    threads may overlap; an overlap of two uses of one of them is a data race,
    because no lock protects either. Simplifications: the ports are replaced by
    the list of servers, with the result of binding each of them; that tasks run
    in the order in which they were given is property C14; the contents of
    packets, pcap files and the filter are left out. *)
From Coq Require Import String.
From Verif Require Import Prelude Table Address PhyModel TestCommand.
Open Scope N_scope.

Section Server.
(** Configurations of controllers, and the default one. *)
Variable C : Type.
Variable standard : C.

(** What the clients of a server are: test_environment.cc 62-64 and 75-92. *)
Inductive service := Test | Link (ty : phy_type) | Hci (c : C).

(** PosixAsyncSocketServer (posix_async_socket_server.cc 32-75). [bound]:
    server_socket_ exists, which needs the port to be free. [listening]:
    watching_ of the server socket (posix_async_socket.cc). *)
Record server := { offers : service; bound : bool; listening : bool }.

(** Who is at the other end of the socket of a device: the host of a controller,
    with the server it came to and the configuration of the controller ([None]
    once a test command changed it), a client of a link layer server, or a
    server that add_remote connected to. Sockets are numbered. *)
Inductive owner :=
| Host (c : N) (i : nat) (conf : option C)
| Peer (c : N) (ty : phy_type)
| Remote (c : N) (ty : phy_type).

(** The tasks given to the AsyncManager: those of test_environment.cc 108-133
    (a host connected) and 147-153 (a command), of test_model.cc 180-183 and
    208-211 (a device was closed) and 268-274 (reset). *)
Inductive task :=
| Attach (c : N) (i : nat) (conf : C)
| Command (c : N) (name : list N) (args : list (list N))
| Closed (d : N)
| Clear
| Tick (noticed : list N).

(** What the main thread does in initialize (142-178), in order. *)
Inductive action := Listen (i : nat) | Call (name : list N) (args : list (list N)) | Sniff.

(** What a test client reads. *)
Inductive text := Greeting | Broken | Answer (name : list N) (r : response).

Inductive obs :=
| Accepted (c : N) (i : nat)
| Sent (c : N) (t : text)
| Created (d c : N) (conf : C)
| Ended.

Record state := {
  todo : list action; acting : bool;       (* the main thread, and whether it is in its first action *)
  servers : list server;
  next : N;                                (* number of the next socket *)
  adding : option (nat * N * phy_type);    (* the watching thread is in AddLinkLayerConnection *)
  open : bool;                             (* test_channel_open_ *)
  watched : list N;                        (* sockets of test clients that are watched *)
  responder : option N;                    (* the socket that send_response_ writes to *)
  queue : list task; running : option task;
  sim : model; clock : timer;
  owners : table owner;
  ended : bool }.                          (* barrier_ has its value *)

Definition set_main t a (s : state) : state := {| todo := t; acting := a; servers := servers s; next := next s; adding := adding s; open := open s; watched := watched s; responder := responder s; queue := queue s; running := running s; sim := sim s; clock := clock s; owners := owners s; ended := ended s |}.
Definition set_servers v (s : state) : state := {| todo := todo s; acting := acting s; servers := v; next := next s; adding := adding s; open := open s; watched := watched s; responder := responder s; queue := queue s; running := running s; sim := sim s; clock := clock s; owners := owners s; ended := ended s |}.
Definition set_next v (s : state) : state := {| todo := todo s; acting := acting s; servers := servers s; next := v; adding := adding s; open := open s; watched := watched s; responder := responder s; queue := queue s; running := running s; sim := sim s; clock := clock s; owners := owners s; ended := ended s |}.
Definition set_adding v (s : state) : state := {| todo := todo s; acting := acting s; servers := servers s; next := next s; adding := v; open := open s; watched := watched s; responder := responder s; queue := queue s; running := running s; sim := sim s; clock := clock s; owners := owners s; ended := ended s |}.
Definition set_channel o w r (s : state) : state := {| todo := todo s; acting := acting s; servers := servers s; next := next s; adding := adding s; open := o; watched := w; responder := r; queue := queue s; running := running s; sim := sim s; clock := clock s; owners := owners s; ended := ended s |}.
Definition set_tasks q r (s : state) : state := {| todo := todo s; acting := acting s; servers := servers s; next := next s; adding := adding s; open := open s; watched := watched s; responder := responder s; queue := q; running := r; sim := sim s; clock := clock s; owners := owners s; ended := ended s |}.
Definition set_sim m o (s : state) : state := {| todo := todo s; acting := acting s; servers := servers s; next := next s; adding := adding s; open := open s; watched := watched s; responder := responder s; queue := queue s; running := running s; sim := m; clock := clock s; owners := o; ended := ended s |}.
Definition set_clock v (s : state) : state := {| todo := todo s; acting := acting s; servers := servers s; next := next s; adding := adding s; open := open s; watched := watched s; responder := responder s; queue := queue s; running := running s; sim := sim s; clock := v; owners := owners s; ended := ended s |}.
Definition set_ended (s : state) : state := {| todo := todo s; acting := acting s; servers := servers s; next := next s; adding := adding s; open := open s; watched := watched s; responder := responder s; queue := queue s; running := running s; sim := sim s; clock := clock s; owners := owners s; ended := true |}.

(** ** Setting up *)

(** The constructor (58-93): the servers for test clients and link layer clients,
    then one server for every tcp_server of the configuration, or one with the
    default configuration when the text cannot be read or has no tcp_server.
    [binds i]: whether the port of server [i] could be opened. *)
Definition services (config : option (list C)) : list service :=
  [Test; Link BrEdr; Link LowEnergy] ++
  match config with
  | None | Some [] => [Hci standard]
  | Some l => map Hci l
  end.
Fixpoint open_all (binds : nat -> bool) (i : nat) (l : list service) : list server :=
  match l with
  | [] => []
  | v :: l => {| offers := v; bound := binds i; listening := false |} :: open_all binds (S i) l
  end.

(** initialize (142-178): SetUpTestChannel (216-252) listens for test clients
    first (TestChannelTransport::SetUp, test_channel_transport.cc 31-37) and then
    builds the topology with the methods behind the commands; then come the link
    layer servers (185-206), the HCI servers and the sniffer. *)
Definition topology : list action :=
  [Call (str "add_phy") [str "BR_EDR"];
   Call (str "add_phy") [str "LOW_ENERGY"];
   Call (str "add") [str "beacon"; str "be:ac:01:55:00:01"; str "1000"];
   Call (str "add_device_to_phy") [str "0"; str "1"];
   Call (str "add") [str "beacon"; str "be:ac:01:55:00:02"; str "1000"];
   Call (str "add_device_to_phy") [str "1"; str "1"];
   Call (str "set_timer_period") [str "5"];
   Call (str "start_timer") []]%string.
Definition actions (n : nat) (sniffer : bool) : list action :=
  Listen 0 :: topology ++ map Listen (seq 1 (n - 1)) ++ (if sniffer then [Sniff] else []).

(** The process at the start of initialize; the option that stops the reuse of
    device addresses (root_canal_main.cc) is left out. *)
Definition start (config : option (list C)) (binds : nat -> bool) (sniffer : bool) (prefix : list N) : state :=
  let v := open_all binds 0 (services config) in
  {| todo := actions (List.length v) sniffer; acting := false; servers := v; next := 0; adding := None;
     open := false; watched := []; responder := None; queue := []; running := None;
     sim := init prefix; clock := timer_init; owners := []; ended := false |}.

(** ** The parts of the events *)

Inductive outcome :=
| Next (s : state) (o : list obs)
| Blocked                        (* the event cannot happen *)
| Race                           (* two threads use the same object at a time *)
| Crash                          (* the process stops: abort, exception or undefined behaviour *)
| Hang.                          (* a loop that does not end *)

(** StartListening and StopListening of one server
    (posix_async_socket_server.cc 77-85 and 110): without a socket nothing is
    watched. *)
Definition listen (b : bool) (v : server) : server :=
  {| offers := offers v; bound := bound v; listening := if bound v then b else listening v |}.
Fixpoint at_server (f : server -> server) (i : nat) (l : list server) : list server :=
  match l, i with
  | [], _ => []
  | v :: l, O => f v :: l
  | v :: l, S i => v :: at_server f i l
  end.

(** Whether a task uses the simulation, or the function that sends answers. The
    command END_SIMULATION uses neither (148-150). *)
Definition ends (name : list N) : bool := list_eqb name (str "END_SIMULATION").
Definition uses_sim (t : task) : bool := match t with Command _ n _ => negb (ends n) | _ => true end.
Definition uses_responder (t : task) : bool := match t with Command _ n _ => negb (ends n) | _ => false end.
Definition busy (f : task -> bool) (s : state) : bool := match running s with Some t => f t | None => false end.
Definition main_calls (s : state) : bool :=
  acting s && match todo s with Call _ _ :: _ => true | _ => false end.

(** send_response_ (test_command_handler.cc 94-98, test_environment.cc 228-230)
    and SendResponse (test_channel_transport.cc 92-111): a socket that was closed
    here takes nothing, EBADF; a write that the client does not take in full
    aborts. [ok]: the client takes what is written. *)
Definition respond (ok : bool) (s : state) (l : list text) : option (list obs) :=
  match l, responder s with
  | [], _ | _, None => Some []
  | _, Some c => if mem c (watched s) then if ok then Some (map (Sent c) l) else None else Some []
  end.

(** AddLinkLayerConnection (test_model.cc 167-184) with the address that every
    Device begins with (device.cc 36-38). *)
Definition add_link (s : state) (ty : phy_type) (o : owner) : outcome :=
  match step (sim s) (AddLinkLayer default_address ty) with
  | Some m => Next (set_sim m (put (owners s) (next_dev (sim s)) o) s) []
  | None => Hang
  end.

(** RemoveDevice (test_model.cc 129-134): the device goes, and with it its socket
    is closed. *)
Definition remove (s : state) (d : N) : outcome :=
  match step (sim s) (RemoveDevice d) with
  | Some m => Next (set_sim m (erase (owners s) d) s) []
  | None => Hang
  end.

(** SetDeviceConfiguration (test_model.cc 228-239): for controllers only. *)
Definition reconfigure (s : state) (d : N) : state :=
  match lookup (owners s) d with
  | Some (Host c i _) => set_sim (sim s) (put (owners s) d (Host c i None)) s
  | _ => s
  end.

(** One effect of a command. Reset gives a task (test_model.cc 266-275).
    AddRemote (186-192) adds a device when the connection succeeds ([reach]). *)
Definition effect_step (reach : bool) (s : state) (f : effect) : outcome :=
  match f with
  | ETopology Reset => Next (set_tasks (queue s ++ [Clear]) (running s) s) []
  | ETopology (RemoveDevice d) => remove s d
  | ETopology o =>
      match step (sim s) o with
      | Some m => Next (set_sim m (owners s) s) []
      | None => Hang
      end
  | ETimer o => Next (set_clock (timer_step (clock s) o) s) []
  | EConnect _ _ ty =>
      if reach then add_link (set_next (next s + 1) s) ty (Remote (next s) ty) else Next s []
  | EConfigure d => Next (reconfigure s d) []
  end.
Fixpoint effects (reach : bool) (s : state) (l : list effect) : outcome :=
  match l with
  | [] => Next s []
  | f :: l => match effect_step reach s f with Next s _ => effects reach s l | r => r end
  end.

(** A command (test_command_handler.cc 85-92), by a thread that then goes on as
    [k] says. *)
Definition command (ok reach : bool) (s : state) (name : list N) (args : list (list N)) : outcome :=
  match handle name args with
  | Ok l r =>
      match effects reach s l with
      | Next s _ =>
          match respond ok s (map (Answer name) r) with
          | Some o => Next s o
          | None => Crash
          end
      | x => x
      end
  | Undefined | Throws => Crash
  end.

(** ** Events *)

Inductive event :=
| Main (ok reach : bool)               (* the main thread begins or ends its next action *)
| Connect (i : nat) (ok : bool)        (* the watching thread accepts a client of server i *)
| AcceptFails (i : nat)                (* accept returns an error *)
| Added                                (* the watching thread returns from AddLinkLayerConnection *)
| Request (c : N) (name : list N) (args : list (list N))  (* it has read a command *)
| Leave (c : N)                        (* it has read CLOSE_TEST_CHANNEL, an empty name or the end *)
| Begin                                (* the task thread takes the first task *)
| BeginTick (noticed : list N)         (* it ticks the devices; these find their socket closed *)
| Finish (ok reach : bool).            (* it ends the task *)

(** The main thread (142-178). *)
Definition do_main (ok reach : bool) (s : state) : outcome :=
  match todo s, acting s with
  | [], _ => Blocked
  | Listen i :: l, _ => Next (set_servers (at_server (listen true) i (servers s)) (set_main l false s)) []
  | Call name args :: l, false =>
      if busy uses_sim s || match adding s with Some _ => true | None => false end then Race
      else Next (set_main (todo s) true s) []
  | Call name args :: l, true => command ok reach (set_main l false s) name args
  | Sniff :: l, false =>
      if busy uses_sim s || match adding s with Some _ => true | None => false end then Race
      else Next (set_main (todo s) true s) []
  | Sniff :: l, true =>
      match step (sim s) (AddLinkLayer default_address BrEdr) with
      | Some m => Next (set_sim m (owners s) (set_main l false s)) []
      | None => Hang
      end
  end.

(** AcceptSocket (posix_async_socket_server.cc 95-108) and the functions that the
    servers call: 101-137, 186-204 and 219-238. *)
Definition do_connect (i : nat) (ok : bool) (s : state) : outcome :=
  match adding s, nth_error (servers s) i with
  | None, Some v =>
      if listening v then
        let c := next s in
        let s := set_next (c + 1) (set_servers (at_server (listen false) i (servers s)) s) in
        match offers v with
        | Hci conf =>
            Next (set_servers (at_server (listen true) i (servers s))
                    (set_tasks (queue s ++ [Attach c i conf]) (running s) s)) [Accepted c i]
        | Link ty =>
            if busy uses_sim s || acting s then Race
            else Next (set_adding (Some (i, c, ty)) s) [Accepted c i]
        | Test =>
            let s := set_servers (at_server (listen true) i (servers s)) s in
            if open s then if ok then Next s [Accepted c i; Sent c Broken] else Crash
            else if busy uses_responder s || main_calls s then Race
            else if ok then Next (set_channel true (c :: watched s) (Some c) s) [Accepted c i; Sent c Greeting]
            else Crash
        end
      else Blocked
  | _, _ => Blocked
  end.

(** The end of AddLinkLayerConnection on the watching thread (185-206). *)
Definition do_added (s : state) : outcome :=
  match adding s with
  | Some (i, c, ty) =>
      add_link (set_servers (at_server (listen true) i (servers s)) (set_adding None s)) ty (Peer c ty)
  | None => Blocked
  end.

(** OnCommandReady (test_channel_transport.cc 43-90). *)
Definition do_request (c : N) (name : list N) (args : list (list N)) (s : state) : outcome :=
  match adding s with
  | Some _ => Blocked
  | None =>
      if mem c (watched s) then Next (set_tasks (queue s ++ [Command c name args]) (running s) s) []
      else Blocked
  end.
Definition do_leave (c : N) (s : state) : outcome :=
  match adding s with
  | Some _ => Blocked
  | None => if mem c (watched s) then Next (set_channel false (set_erase c (watched s)) (responder s) s) [] else Blocked
  end.

Definition in_use (s : state) : bool :=
  acting s || match adding s with Some _ => true | None => false end.
(** The conflict of a task that begins now with the other threads. *)
Definition conflict (t : task) (s : state) : bool :=
  (uses_sim t && in_use s) || (uses_responder t && main_calls s).

Definition do_begin (s : state) : outcome :=
  match running s, queue s with
  | None, t :: l => if conflict t s then Race else Next (set_tasks l (Some t) s) []
  | _, _ => Blocked
  end.
(** TestModel::Tick (test_model.cc 260-264): run by a periodic task while the
    timer runs. Only devices with a socket can find it closed. *)
Definition do_tick (noticed : list N) (s : state) : outcome :=
  match running s, ticking (clock s) with
  | None, _ :: _ =>
      if forallb (fun d => match lookup (owners s) d with Some _ => true | None => false end) noticed then
        if conflict (Tick noticed) s then Race else Next (set_tasks (queue s) (Some (Tick noticed)) s) []
      else Blocked
  | _, _ => Blocked
  end.

Definition is_close (d : N) (t : task) : bool := match t with Closed e => e =? d | _ => false end.

Definition do_finish (ok reach : bool) (s : state) : outcome :=
  match running s with
  | None => Blocked
  | Some t =>
      let s := set_tasks (queue s) None s in
      match t with
      | Attach c i conf =>                       (* 108-133 and AddHciConnection, test_model.cc 194-213 *)
          match step (sim s) (AddHci None) with
          | Some m => Next (set_sim m (put (owners s) (next_dev (sim s)) (Host c i (Some conf))) s)
                           [Created (next_dev (sim s)) c conf]
          | None => Hang
          end
      | Command c name args =>                   (* 147-153 *)
          if ends name then if ended s then Crash else Next (set_ended s) [Ended]
          else command ok reach s name args
      | Closed d =>                              (* OnConnectionClosed, test_model.cc 215-220 *)
          if mem d (keys (devices (sim s))) then
            remove (set_tasks (filter (fun t => negb (is_close d t)) (queue s)) None s) d
          else Next s []
      | Clear =>
          match step (sim s) Reset with
          | Some m => Next (set_sim m [] s) []
          | None => Hang
          end
      | Tick noticed => Next (set_tasks (queue s ++ map Closed noticed) None s) []
      end
  end.

Definition step_event (s : state) (e : event) : outcome :=
  match e with
  | Main ok reach => do_main ok reach s
  | Connect i ok => do_connect i ok s
  | AcceptFails i =>
      match adding s, nth_error (servers s) i with
      | None, Some v => if listening v then Next s [] else Blocked
      | _, _ => Blocked
      end
  | Added => do_added s
  | Request c name args => do_request c name args s
  | Leave c => do_leave c s
  | Begin => do_begin s
  | BeginTick l => do_tick l s
  | Finish ok reach => do_finish ok reach s
  end.

Fixpoint run_events (s : state) (l : list event) : outcome :=
  match l with
  | [] => Next s []
  | e :: l =>
      match step_event s e with
      | Next s o => match run_events s l with Next s2 o2 => Next s2 (o ++ o2) | r => r end
      | r => r
      end
  end.
End Server.

Arguments Test {C}.
Arguments Link {C}.
Arguments Hci {C}.
Arguments offers {C}.
Arguments bound {C}.
Arguments listening {C}.
Arguments Host {C}.
Arguments Peer {C}.
Arguments Remote {C}.
Arguments Attach {C}.
Arguments Command {C}.
Arguments Closed {C}.
Arguments Clear {C}.
Arguments Tick {C}.
Arguments Accepted {C}.
Arguments Sent {C}.
Arguments Created {C}.
Arguments Ended {C}.
Arguments Next {C}.
Arguments Blocked {C}.
Arguments Race {C}.
Arguments Crash {C}.
Arguments Hang {C}.
Arguments todo {C}.
Arguments acting {C}.
Arguments servers {C}.
Arguments next {C}.
Arguments adding {C}.
Arguments open {C}.
Arguments watched {C}.
Arguments responder {C}.
Arguments queue {C}.
Arguments running {C}.
Arguments sim {C}.
Arguments clock {C}.
Arguments owners {C}.
Arguments ended {C}.
Arguments services {C}.
Arguments start {C}.
Arguments step_event {C}.
Arguments run_events {C}.
