(** Model of the sockets: net/posix/posix_async_socket.cc and .h (AS below) and
    net/posix/posix_async_socket_connector.cc (SC below).

    Descriptors are numbers, [None] is -1. The kernel's answers are part of the operations;
    each open file has a number of its own, so that a descriptor used again is told from
    the former one. Calls on sockets do not overlap here (the schedules of the watcher
    thread are in FdWatch.v). *)
From Verif Require Import Prelude Table.
Open Scope N_scope.

Definition EINTR : N := 4.
Definition EBADF : N := 9.
Definition EAGAIN : N := 11.   (** EWOULDBLOCK is the same number *)
Definition EINPROGRESS : N := 115.

(** What a system call returns: a number of bytes, or -1 and errno *)
Inductive answer := Got (n : N) | Failed (e : N).

(** AS.h:89-91, REPEAT_UNTIL_NO_INTR: the answer that ends the loop and the number of calls
    before it; [None] when the kernel has not given it yet *)
Fixpoint settle (l : list answer) : option (answer * nat) :=
  match l with
  | [] => None
  | Failed e :: l' =>
      if e =? EINTR then match settle l' with Some (a, n) => Some (a, S n) | None => None end
      else match l' with [] => Some (Failed e, O) | _ => None end
  | Got n :: l' => match l' with [] => Some (Got n, O) | _ => None end
  end.

(** AS.h:70-85 *)
Record sock := Sock { fd : option N; watching : bool }.

Record state := State {
  socks : table sock;       (** the socket objects *)
  open : table (N * bool);  (** the descriptors of the process: file, and whether it belongs to other code *)
  watched : table N;        (** watched_shared_fds_ of the watcher: the object captured by the callback *)
  errno : N;
  made : N }.               (** files opened so far *)

Definition start : state := State [] [] [] 0 0.

Inductive call := CRead | CSend | CPeek | CShutdown | CClose.

Inductive effect :=
| Sys (c : call) (f : N) (file : option N)  (** a system call, and the file it finds *)
| Nowhere (c : call)                        (** a system call on -1 *)
| Created (f file : N)
| Returned (a : answer)
| Says (b : bool)
| Called (a f : N).                         (** the callback of the socket [a] *)

Inductive op :=
| Make (a : N) (k : option N)           (** a socket on what socket() or accept() returned *)
| Move (a b : N)                        (** the move constructor *)
| Recv (a : N) (l : list answer)
| Send (a : N) (l : list answer)
| Connected (a : N) (k : answer)
| Close (a : N) (l : list answer) (k : answer)
| Destroy (a : N) (l : list answer) (k : answer)
| Watch (a : N) (started : bool)        (** the watcher thread can be started *)
| Unwatch (a : N)
| Ready (f : N)                         (** the watcher finds [f] readable *)
| OtherOpen (f : N)
| OtherClose (f : N).                   (** other code closes its own descriptors only *)

Inductive result := Next (s : state) (out : list effect) | Undefined | Stuck.

Definition with_socks (x : table sock) (s : state) := State x (open s) (watched s) (errno s) (made s).
Definition with_open (x : table (N * bool)) (s : state) := State (socks s) x (watched s) (errno s) (made s).
Definition with_watched (x : table N) (s : state) := State (socks s) (open s) x (errno s) (made s).
Definition with_errno (x : N) (s : state) := State (socks s) (open s) (watched s) x (made s).
Definition with_made (x : N) (s : state) := State (socks s) (open s) (watched s) (errno s) x.

Definition file_at (s : state) (f : N) : option N := option_map fst (lookup (open s) f).

(** errno after a loop of calls that started with the value [e0] *)
Definition errno_after (e0 : N) (a : answer) (n : nat) : N :=
  match a, n with Failed e, _ => e | Got _, O => e0 | Got _, S _ => EINTR end.

(** AS:41-55. fcntl fails on -1 *)
Definition make (a : N) (k : option N) (s : state) : result :=
  if has (socks s) a then Stuck
  else match k with
  | None => Next (with_errno EBADF (with_socks (put (socks s) a (Sock None false)) s)) []
  | Some f =>
      if has (open s) f then Stuck
      else Next (with_made (made s + 1) (with_open (put (open s) f (made s, false)) (with_socks (put (socks s) a (Sock (Some f) false)) s)))
             [Created f (made s)]
  end.

(** AS:57-64 *)
Definition move (a b : N) (s : state) : result :=
  match lookup (socks s) a with
  | Some k => if has (socks s) b then Stuck
              else Next (with_socks (put (put (socks s) b k) a (Sock None false)) s) []
  | None => Stuck
  end.

(** AS:67-82 *)
Definition recv (a : N) (l : list answer) (s : state) : result :=
  match lookup (socks s) a with
  | Some (Sock None _) => Next s [Returned (Got 0)]
  | Some (Sock (Some f) _) =>
      match settle l with
      | Some (r, n) => Next (with_errno (errno_after 0 r n) s) (repeat (Sys CRead f (file_at s f)) (S n) ++ [Returned r])
      | None => Stuck
      end
  | None => Stuck
  end.

(** AS:84-101: no test of fd_ *)
Definition send (a : N) (l : list answer) (s : state) : result :=
  match lookup (socks s) a with
  | Some (Sock None _) => Next (with_errno EBADF s) [Nowhere CSend; Returned (Failed EBADF)]
  | Some (Sock (Some f) _) =>
      match settle l with
      | Some (r, n) => Next (with_errno (errno_after 0 r n) s) (repeat (Sys CSend f (file_at s f)) (S n) ++ [Returned r])
      | None => Stuck
      end
  | None => Stuck
  end.

(** AS:103-115: errno is not cleared before, and recv() leaves it alone unless it fails *)
Definition connected (a : N) (k : answer) (s : state) : result :=
  match lookup (socks s) a with
  | Some (Sock None _) => Next s [Says false]
  | Some (Sock (Some f) _) =>
      let s' := with_errno (match k with Failed e => e | Got _ => errno s end) s in
      Next s' [Sys CPeek f (file_at s f);
               Says (match k with Got 1 => true | _ => errno s' =? EAGAIN end)]
  | None => Stuck
  end.

(** AS:150-155 *)
Definition unwatch (a : N) (s : state) : state :=
  match lookup (socks s) a with
  | Some (Sock (Some f) true) => with_watched (erase (watched s) f) (with_socks (put (socks s) a (Sock (Some f) false)) s)
  | Some (Sock None true) => with_socks (put (socks s) a (Sock None false)) s
  | _ => s
  end.

(** AS:117-138, without the getsockopt() that clears the error. Whatever close() returns, the descriptor is free afterwards *)
Definition close (a : N) (l : list answer) (k : answer) (s : state) : result :=
  match lookup (socks s) a with
  | Some (Sock None _) => Next s []
  | Some (Sock (Some f) _) =>
      match settle l with
      | Some (r, n) =>
          let s1 := unwatch a s in
          Next (with_errno (match k with Failed e => e | Got _ => errno_after (errno s) r n end)
                 (with_open (erase (open s1) f) (with_socks (put (socks s1) a (Sock None false)) s1)))
            (repeat (Sys CShutdown f (file_at s f)) (S n) ++ [Sys CClose f (file_at s f)])
      | None => Stuck
      end
  | None => Stuck
  end.

(** AS:65 *)
Definition destroy (a : N) (l : list answer) (k : answer) (s : state) : result :=
  match close a l k s with
  | Next s' out => Next (with_socks (erase (socks s') a) s') out
  | r => r
  end.

(** AS:140-148, async_manager.cc WatchFdForNonBlockingReads: the callback is stored before
    the thread is started. A descriptor of -1 makes FD_SET write outside of the set. *)
Definition watch (a : N) (started : bool) (s : state) : result :=
  match lookup (socks s) a with
  | Some (Sock _ true) => Next s [Says false]
  | Some (Sock None false) => Undefined
  | Some (Sock (Some f) false) =>
      Next (with_watched (put (watched s) f a) (with_socks (put (socks s) a (Sock (Some f) true)) s)) [Says started]
  | None => Stuck
  end.

(** AS:143-144: the callback has the address of the object *)
Definition ready (f : N) (s : state) : result :=
  match lookup (watched s) f with
  | Some a => if has (socks s) a then Next s [Called a f] else Undefined
  | None => Stuck
  end.

Definition step (s : state) (o : op) : result :=
  match o with
  | Make a k => make a k s
  | Move a b => move a b s
  | Recv a l => recv a l s
  | Send a l => send a l s
  | Connected a k => connected a k s
  | Close a l k => close a l k s
  | Destroy a l k => destroy a l k s
  | Watch a ok => watch a ok s
  | Unwatch a => if has (socks s) a then Next (unwatch a s) [] else Stuck
  | Ready f => ready f s
  | OtherOpen f => if has (open s) f then Stuck
                   else Next (with_made (made s + 1) (with_open (put (open s) f (made s, true)) s)) [Created f (made s)]
  | OtherClose f => match lookup (open s) f with
                    | Some (i, true) => Next (with_open (erase (open s) f) s) [Sys CClose f (Some i)]
                    | _ => Stuck
                    end
  end.

(** The operations so far, the last one first *)
Inductive history : list (op * list effect) -> state -> Prop :=
| history_start : history [] start
| history_step h s o s' out : history h s -> step s o = Next s' out -> history ((o, out) :: h) s'.

(** ** Connecting *)

(** SC:35-107: the answers of socket(), gethostbyname(), connect(), poll(), getpeername(),
    getsockopt() and the error of the socket *)
Record network := Network {
  n_socket : option N; n_host : bool; n_connect : answer; n_poll : list answer;
  n_peer : bool; n_option : bool; n_error : N }.

(** Connects, or closes the socket; [Open]: fd_ stays open. The time is that of the polls,
    each of [timeout] milliseconds at most (the name lookup takes time too) *)
Inductive outcome := Open (f : N) | Closed | Waiting.

Definition connect (w : network) : outcome :=
  match n_socket w with
  | None => Closed
  | Some f =>
      if f <? 1 then Open f  (* SC:41-44: returns without closing *)
      else if negb (n_host w) then Closed
      else match n_connect w with
      | Failed e =>
          if (e =? EAGAIN) || (e =? EINPROGRESS) then
            match settle (n_poll w) with
            | None => Waiting
            | Some (Got 0, _) | Some (Failed _, _) => Closed
            | Some (Got _, _) => if negb (n_peer w) then Closed else if negb (n_option w) || negb (n_error w =? 0) then Closed else Open f
            end
          else Closed
      | Got _ =>
            match settle (n_poll w) with
            | None => Waiting
            | Some (Got 0, _) | Some (Failed _, _) => Closed
            | Some (Got _, _) => if negb (n_peer w) then Closed else if negb (n_option w) || negb (n_error w =? 0) then Closed else Open f
            end
      end
  end.
