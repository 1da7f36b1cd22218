(** What the clients of the watcher of file descriptors see: the calls, the callbacks, and what
    the operating system says, in the order in which they happen. *)
From Verif Require Import Prelude FdWatch.
From Coq Require Import ZArith.
Open Scope Z_scope.

(** A run: the acts from the first to the last, with what they give *)
Definition run := list (act * list event).
Inductive runs : state -> run -> state -> Prop :=
| runs_nil : forall s, runs s [] s
| runs_cons : forall s a s1 e r s', step s a = Next s1 e -> runs s1 r s' -> runs s ((a, e) :: r) s'.

(** A call of WatchFdForNonBlockingReads for [f] *)
Definition watches (f : fd) (a : act) : bool :=
  match a with Watch _ g _ | InWatch g _ => g =? f | _ => false end.
(** ... of StopWatchingFileDescriptor, or of stopThread *)
Definition unwatches (f : fd) (a : act) : bool :=
  match a with Unwatch _ g | InUnwatch g => g =? f | Clear _ | InStop => true | _ => false end.
Definition called (f : fd) (x : act * list event) : bool :=
  existsb (fun e => match e with Called g _ => g =? f | _ => false end) (snd x).
Definition calls_of (r : run) : list (fd * callback) :=
  flat_map (fun x => flat_map (fun e => match e with Called f c => [(f, c)] | _ => [] end) (snd x)) r.

(** The callback that is to be called for [f]: the last one given, unless [f] is no longer watched *)
Definition callback_after (f : fd) (b : option callback) (a : act) : option callback :=
  match a with
  | Watch _ g c | InWatch g c => if g =? f then Some c else b
  | _ => if unwatches f a then None else b
  end.
Definition callback_for (f : fd) (r : run) : option callback := fold_left (fun b x => callback_after f b (fst x)) r None.

(** Nobody is in the middle of a call *)
Definition quiet (s : state) : Prop := forall t, clients s t = Free.

(** The watcher thread alone goes on: the callbacks do nothing else. *)
Definition watcher_act (a : act) : bool :=
  match a with Check | SetUp | Wake | Drain | Take | Call | Done => true | _ => false end.

(** The acts of stopThread, on a client thread and in a callback *)
Definition stops (a : act) : bool := match a with Stop _ | InStop => true | _ => false end.
(** The operating system makes the pipe *)
Definition pipe_made (a : act) : bool := match a with Pipe _ false => false | _ => true end.
(** Descriptors that an fd_set can hold: those below FD_SETSIZE, 1024 *)
Definition in_set (f : fd) : bool := (0 <=? f) && (f <? 1024).
Definition valid (a : act) : bool := match a with Watch _ f _ | InWatch f _ => in_set f | _ => true end.

(** What the operating system said last of [f] *)
Definition data (f : fd) (r : run) : bool := fold_left (fun b x => match fst x with Arrive g v => if g =? f then v else b | _ => b end) r false.

Definition free_of (p : act -> bool) (r : run) : Prop := forall x, In x r -> p (fst x) = false.
Definition is_wake (a : act) : bool := match a with Wake => true | _ => false end.
Definition is_take (a : act) : bool := match a with Take => true | _ => false end.
Definition is_done (a : act) : bool := match a with Done => true | _ => false end.
Definition is_spawn (a : act) : bool := match a with Spawn _ => true | _ => false end.
Definition any_watch (a : act) : bool := match a with Watch _ _ _ | InWatch _ _ => true | _ => false end.
Definition in_stop (a : act) : bool := match a with InStop => true | _ => false end.

(** The callback of [f] may be called in a run that ends with the return of select(), other acts,
    the collection of the callbacks, and other acts *)
Definition justified (f : fd) (c : callback) (r : run) : Prop :=
  exists r0 r1 r2 e1 e2, r = r0 ++ (Wake, e1) :: r1 ++ (Take, e2) :: r2 /\
    free_of is_wake (r1 ++ r2) /\ free_of is_take (r1 ++ r2) /\ free_of is_done (r1 ++ r2) /\
    data f r0 = true /\ callback_for f (r0 ++ (Wake, e1) :: r1) = Some c /\
    (forall g d, In (g, d) (calls_of r2) -> g < f).

(** A client in the middle of stopThread *)
Definition stopping (c : client) : bool := match c with Stopping | Joining | Clearing => true | _ => false end.
(** Clients that take care: the thread is stopped when nobody is in the middle of a call and not by a
    callback, and nobody starts to watch a descriptor until the stop is over. The pipe is made. *)
Definition careful (s : state) (a : act) : Prop :=
  match a with
  | Stop _ => quiet s
  | Watch _ _ _ | InWatch _ _ => forall t, stopping (clients s t) = false
  | InStop => False
  | Pipe _ ok => ok = true
  | _ => True
  end.
Inductive orderly : state -> run -> state -> Prop :=
| orderly_nil : forall s, orderly s [] s
| orderly_cons : forall s a s1 e r s', careful s a -> step s a = Next s1 e -> orderly s1 r s' -> orderly s ((a, e) :: r) s'.

(** The acts of the thread of [t] that stops the watcher *)
Definition stop_act (t : N) (a : act) : bool := match a with Notify u | Join u | Clear u => N.eqb u t | _ => false end.
