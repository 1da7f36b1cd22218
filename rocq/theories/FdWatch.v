(** Model of the watcher of file descriptors: the threads that share it, one critical section
    or one access to an atomic at a time.
    Source: model/setup/async_manager.cc:106-282 (AsyncFdWatcher).

    Every critical section of the clients is one step, which needs the mutex to be free. The
    watcher holds the mutex from the moment it collects the callbacks of a round to the end of
    the last callback (236-245). The mutex is recursive: a callback can call the functions of
    the class. *)
From Verif Require Import Prelude.
From Coq Require Import ZArith Sorting.Sorted.
Open Scope Z_scope.

(** A file descriptor (int), and the name of a callback *)
Notation fd := Z (only parsing).
Definition callback := N.

(** std::map<int, ReadCallback>, in the order of the descriptors (277) *)
Definition fds := list (fd * callback).
Fixpoint assign (m : fds) (f : fd) (c : callback) : fds :=
  match m with
  | [] => [(f, c)]
  | (g, d) :: m' => if f <? g then (f, c) :: m else if f =? g then (f, c) :: m' else (g, d) :: assign m' f c
  end.
Definition erase (m : fds) (f : fd) : fds := List.filter (fun e => negb (fst e =? f)) m.

(** Where the thread is, ThreadRoutine 247-271 *)
Inductive place :=
| Off                        (** not started, or ended *)
| Top                        (** 248, before [running_] is read *)
| Setup                      (** 249-251 *)
| Asleep (set : list fd)     (** in select(), 254 *)
| Woken (ready : list fd) (notified : bool) (** 262: what select() has left in the set *)
| Drained (ready : list fd)  (** 265-267 *)
| Collect (ready : list fd)  (** 269, before the mutex is taken *)
| Calling (todo : fds).      (** 242-244: the callbacks that remain; the mutex is held *)

(** Where a client thread is *)
Inductive client :=
| Free
| Inserted (f : fd)          (** 111-115 done *)
| Starting (f : fd)          (** 169: [running_] was false *)
| Spawning (f : fd)          (** 185-188, the pipe is made *)
| Notifying (f : fd)         (** 124-125 *)
| Stopping                   (** 144-146 *)
| Joining                    (** 148-149 *)
| Clearing.                  (** 154-157 *)

Record state := State {
  watched : fds;
  running : bool;
  pipe : option N;           (** the bytes in the pipe; no pipe yet: notification_write_fd_ is 0 (281) *)
  stray : N;                 (** bytes written to descriptor 0 instead *)
  joinable : bool;           (** of thread_ *)
  place_of : place;
  clients : N -> client;
  readable : fd -> bool      (** what the operating system says of a descriptor *)
}.

Definition start : state := State [] false None 0 false Off (fun _ => Free) (fun _ => false).

Definition set_watched v s := State v (running s) (pipe s) (stray s) (joinable s) (place_of s) (clients s) (readable s).
Definition set_running v s := State (watched s) v (pipe s) (stray s) (joinable s) (place_of s) (clients s) (readable s).
Definition set_pipe v s := State (watched s) (running s) v (stray s) (joinable s) (place_of s) (clients s) (readable s).
Definition set_stray v s := State (watched s) (running s) (pipe s) v (joinable s) (place_of s) (clients s) (readable s).
Definition set_joinable v s := State (watched s) (running s) (pipe s) (stray s) v (place_of s) (clients s) (readable s).
Definition set_place v s := State (watched s) (running s) (pipe s) (stray s) (joinable s) v (clients s) (readable s).
Definition set_client (t : N) v s :=
  State (watched s) (running s) (pipe s) (stray s) (joinable s) (place_of s) (fun u => if N.eqb u t then v else clients s u) (readable s).
Definition set_readable (f : fd) b s :=
  State (watched s) (running s) (pipe s) (stray s) (joinable s) (place_of s) (clients s) (fun g => if g =? f then b else readable s g).

(** What can happen next. A client thread [t]: *)
Inductive act :=
| Watch (t : N) (f : fd) (c : callback)  (** enters WatchFdForNonBlockingReads: 109-115 *)
| Exchange (t : N)           (** 118, 166-168 *)
| Pipe (t : N) (ok : bool)   (** 169-186; [ok]: the operating system makes the pipe *)
| Spawn (t : N)              (** 188-193; the thread is assumed to start *)
| Notify (t : N)             (** 124-127, and 146 *)
| Unwatch (t : N) (f : fd)   (** StopWatchingFileDescriptor, 130-133 *)
| Stop (t : N)               (** enters stopThread: 141-144 *)
| Join (t : N)               (** 148-152 *)
| Clear (t : N)              (** 154-159 *)
(** the watcher thread: *)
| Check                      (** reads [running_]: 248, and 264-267 *)
| SetUp                      (** 249-251, 205-219; the pipe itself is assumed to fit *)
| Wake                       (** select() returns, 254 *)
| Fail                       (** select() returns an error, 255-260 *)
| Drain                      (** 262, 221-231; everything is read *)
| Take                       (** 234-241 *)
| Call                       (** the next callback starts, 242-243 *)
| Done                       (** the mutex is released, 244-245 *)
(** a callback, on the watcher thread: *)
| InWatch (f : fd) (c : callback)
| InUnwatch (f : fd)
| InStop
(** the operating system: data or the end of the data arrives, or they are read *)
| Arrive (f : fd) (b : bool).

Inductive event := Called (f : fd) (c : callback) | Returned (t : N) (ok : bool).

(** [Undefined]: FD_SET of a descriptor that does not fit in the set. [Terminated]: a joinable
    thread is assigned, or a thread is joined twice (std::terminate). *)
Inductive result := Next (s : state) (e : list event) | Undefined | Terminated | Blocked.

(** FD_SETSIZE *)
Definition fits (f : fd) : bool := (0 <=? f) && (f <? 1024).
Definition mutex_free (s : state) : bool := match place_of s with Calling _ => false | _ => true end.

(** notifyThread 196-203: the pipe does not block; when it is full the write fails, which is
    ignored. The capacity of a pipe is 65536 bytes. *)
Definition notify (s : state) : state :=
  match pipe s with
  | Some n => set_pipe (Some (N.min 65536 (n + 1))) s
  | None => set_stray (stray s + 1) s
  end.

Definition in_list (f : fd) (l : list fd) : bool := existsb (fun g => g =? f) l.

Definition step (s : state) (a : act) : result :=
  match a with
  | Watch t f c =>
      match clients s t with
      | Free => if mutex_free s then Next (set_client t (Inserted f) (set_watched (assign (watched s) f c) s)) [] else Blocked
      | _ => Blocked
      end
  | Exchange t =>
      match clients s t with
      | Inserted f => if running s then Next (set_client t (Notifying f) s) []
                      else Next (set_client t (Starting f) (set_running true s)) []
      | _ => Blocked
      end
  | Pipe t ok =>
      match clients s t with
      | Starting f => if ok then Next (set_client t (Spawning f) (set_pipe (Some 0%N) s)) []
                      else Next (set_client t Free s) [Returned t false]
      | _ => Blocked
      end
  | Spawn t =>
      match clients s t with
      | Spawning f => if joinable s then Terminated
                      else Next (set_client t (Notifying f) (set_joinable true (set_place Top s))) []
      | _ => Blocked
      end
  | Notify t =>
      match clients s t with
      | Notifying f => Next (set_client t Free (notify s)) [Returned t true]
      | Stopping => Next (set_client t Joining (notify s)) []
      | _ => Blocked
      end
  | Unwatch t f =>
      match clients s t with
      | Free => if mutex_free s then Next (set_watched (erase (watched s) f) s) [Returned t true] else Blocked
      | _ => Blocked
      end
  | Stop t =>
      match clients s t with
      | Free => if running s then Next (set_client t Stopping (set_running false s)) []
                else Next s [Returned t true]
      | _ => Blocked
      end
  | Join t =>
      match clients s t with
      | Joining => if joinable s then
                     match place_of s with
                     | Off => Next (set_client t Clearing (set_joinable false s)) []
                     | _ => Blocked
                     end
                   else Terminated
      | _ => Blocked
      end
  | Clear t =>
      match clients s t with
      | Clearing => if mutex_free s then Next (set_client t Free (set_watched [] s)) [Returned t true] else Blocked
      | _ => Blocked
      end
  | Check =>
      match place_of s with
      | Top => Next (set_place (if running s then Setup else Off) s) []
      | Drained r => Next (set_place (if running s then Collect r else Off) s) []
      | _ => Blocked
      end
  | SetUp =>
      match place_of s with
      | Setup => if forallb fits (map fst (watched s)) then Next (set_place (Asleep (map fst (watched s))) s) [] else Undefined
      | _ => Blocked
      end
  | Wake =>
      match place_of s with
      | Asleep l =>
          let r := List.filter (readable s) l in
          let n := match pipe s with Some n => (0 <? n)%N | None => false end in
          match r, n with
          | [], false => Blocked
          | _, _ => Next (set_place (Woken r n) s) []
          end
      | _ => Blocked
      end
  | Fail => match place_of s with Asleep _ => Next (set_place Top s) [] | _ => Blocked end
  | Drain =>
      match place_of s with
      | Woken r n => Next (set_place (Drained r) (if n then set_pipe (Some 0%N) s else s)) []
      | _ => Blocked
      end
  | Take =>
      match place_of s with
      | Collect r => Next (set_place (Calling (List.filter (fun e => in_list (fst e) r) (watched s))) s) []
      | _ => Blocked
      end
  | Call =>
      match place_of s with
      | Calling ((f, c) :: l) => Next (set_place (Calling l) s) [Called f c]
      | _ => Blocked
      end
  | Done => match place_of s with Calling [] => Next (set_place Top s) [] | _ => Blocked end
  (** A callback calls the functions of the class on the watcher thread. The insertion and the
      notification commute with the steps of the clients, so that they are one step with the
      exchange. When [running_] is false the thread is being stopped and is still joinable: it
      is assigned (188), unless the pipe cannot be made. *)
  | InWatch f c =>
      match place_of s with
      | Calling _ => if running s then Next (notify (set_watched (assign (watched s) f c) s)) [] else Terminated
      | _ => Blocked
      end
  | InUnwatch f =>
      match place_of s with Calling _ => Next (set_watched (erase (watched s) f) s) [] | _ => Blocked end
  (** 141-159 on the thread itself: it is not joined. When [running_] is false already nothing
      happens, which is left out. *)
  | InStop =>
      match place_of s with
      | Calling _ => if running s then Next (set_watched [] (notify (set_running false s))) [] else Blocked
      | _ => Blocked
      end
  | Arrive f b => Next (set_readable f b s) []
  end.
