(** Threads of the asynchronous task manager.

    Models the interleavings of the worker thread with client threads of
    model/setup/async_manager.cc, at the granularity of lock operations. The
    data is that of AsyncTasks.v. Locks are not represented by separate
    variables, since who holds them can be read off the thread states:

    - [internal_mutex_] is held between steps only by a client in the middle of
      a cancellation (every other critical section on it is one step);
    - a task's [in_callback] is held between steps only by the worker, from
      taking it until the callback has returned;
    - [synchronization_mutex_] is held by the worker while a callback runs and
      by a client while the critical section of Synchronize runs.

    Not modelled: stopping the thread, failures to start it, the condition
    variable (a worker that waits is a worker that has nothing to pick), and
    the separate file descriptor thread. The second acquisition of
    [internal_mutex_] in tryStartThread is merged with the first one. *)
From Verif Require Import Prelude Table AsyncTasks.
Open Scope N_scope.

(** Calls to the manager (async_manager.cc 287-319). *)
Inductive call :=
| Sched (u t : N) (p : option N) (c : N)   (* ExecAsync, ExecAsyncPeriodically *)
| Canc (id : N)                            (* CancelAsyncTask *)
| CancU (u : N).                           (* CancelAsyncTasksFromUser *)

(** What a client thread does: a call, or Synchronize with a critical section
    that makes calls (321-324). *)
Inductive stmt := Do (c : call) | Sync (cs : list call).

(** The worker in ThreadRoutine (464-513): between tasks; has picked a task and
    released [internal_mutex_]; holds the task's [in_callback]; runs the
    callback, with the calls the callback still has to make. *)
Inductive wstate :=
| WIdle
| WPicked (t : task)
| WLocked (t : task)
| WRun (t : task) (ks : list call).

(** A client: the cancellation it is in the middle of, with the identifiers
    still to be cancelled; the rest of the critical section it is in; the rest
    of its program. *)
Record client := { busy : option (call * list N); crit : option (list call); todo : list stmt }.

Record state := { data : sched; worker : wstate; clients : list client }.

Inductive event :=
| EStart (n : N)                       (* the callback of task object n starts *)
| EEnd (n : N)
| EErase (i : option nat) (n : N)      (* a cancellation by client i, or by the worker, removed task object n *)
| EReturn (i : nat) (k : call) (r : result).

Definition idle_client (c : client) : bool := match busy c with None => true | Some _ => false end.
Definition outside (c : client) : bool := match crit c with None => true | Some _ => false end.

(** internal_mutex_ is free *)
Definition internal_free (s : state) : bool := forallb idle_client (clients s).
(** the in_callback mutex of task object [n] is held *)
Definition in_callback (s : state) (n : N) : bool :=
  match worker s with WLocked t | WRun t _ => ser t =? n | _ => false end.
(** synchronization_mutex_ is free *)
Definition sync_free (s : state) : bool :=
  match worker s with WRun _ _ => false | _ => forallb outside (clients s) end.

Fixpoint set_nth {A} (l : list A) (i : nat) (x : A) : list A :=
  match l, i with
  | [], _ => []
  | _ :: r, O => x :: r
  | y :: r, S j => y :: set_nth r j x
  end.

(** Callback programs: what the callback with a given name calls. *)
Section Threads.
Variable prog : N -> list call.

(** A call made by the worker (from a callback): cancel_task_with_lock_held
    does not take [in_callback] there (396-412). *)
Definition erased (s : sched) (id : N) : list event :=
  match lookup (by_id s) id with Some t => [EErase None (ser t)] | None => [] end.

Definition worker_call (s : sched) (k : call) : option (sched * list event) :=
  match k with
  | Sched u t p c => match schedule s u t p c with Some (s', _) => Some (s', []) | None => None end
  | Canc id => Some (fst (cancel s id), erased s id)
  | CancU u => Some (fst (cancel_user s u), flat_map (erased s) (ids_of (by_user s) u))
  end.

(** One step of the worker when the clock shows [now] (464-513, Synchronize
    321-324). *)
Definition wstep (s : state) (now : N) : option (state * list event) :=
  match worker s with
  | WIdle =>
      if internal_free s then
        match pick (data s) now with
        | (d, Some t) => Some ({| data := d; worker := WPicked t; clients := clients s |}, [])
        | (_, None) => None
        end
      else None
  | WPicked t => Some ({| data := data s; worker := WLocked t; clients := clients s |}, [])
  | WLocked t =>
      if sync_free s then
        Some ({| data := data s; worker := WRun t (prog (cb t)); clients := clients s |}, [EStart (ser t)])
      else None
  | WRun t [] => Some ({| data := data s; worker := WIdle; clients := clients s |}, [EEnd (ser t)])
  | WRun t (k :: ks) =>
      if internal_free s then
        match worker_call (data s) k with
        | Some (d, ev) => Some ({| data := d; worker := WRun t ks; clients := clients s |}, ev)
        | None => None
        end
      else None
  end.

(** A client begins a call. A cancellation that finds something to cancel goes
    on holding [internal_mutex_]; the others are one critical section (302-319,
    386-389, 420-447). *)
Definition begin_call (d : sched) (k : call) : option (sched * option (list N) * result) :=
  match k with
  | Sched u t p c => match schedule d u t p c with Some (d', id) => Some (d', None, RId id) | None => None end
  | Canc id => match lookup (by_id d) id with
               | None => Some (d, None, RBool false)
               | Some _ => Some (d, Some [id], RBool true)
               end
  | CancU u => match lookup (by_user d) u with
               | None => Some (d, None, RBool false)
               | Some ids => Some (d, Some ids, RBool true)
               end
  end.

(** The end of a cancellation: CancelAsyncTasksFromUser also forgets the user
    (317). *)
Definition end_cancel (d : sched) (k : call) : sched :=
  match k with
  | CancU u => {| last_id := last_id d; next_ser := next_ser d; by_id := by_id d;
                  by_user := erase (by_user d) u; queue := queue d |}
  | _ => d
  end.

Definition put_client (s : state) (d : sched) (i : nat) (c : client) : state :=
  {| data := d; worker := worker s; clients := set_nth (clients s) i c |}.

Definition call_step (s : state) (i : nat) (k : call) (cr : option (list call)) (rest : list stmt)
  : option (state * list event) :=
  if internal_free s then
    match begin_call (data s) k with
    | Some (d, None, r) =>
        Some (put_client s d i {| busy := None; crit := cr; todo := rest |}, [EReturn i k r])
    | Some (d, Some ids, _) =>
        Some (put_client s d i {| busy := Some (k, ids); crit := cr; todo := rest |}, [])
    | None => None
    end
  else None.

(** One step of client [i]. *)
Definition cstep (s : state) (i : nat) : option (state * list event) :=
  match nth_error (clients s) i with
  | None => None
  | Some c =>
      match busy c with
      | Some (k, []) =>
          Some (put_client s (end_cancel (data s) k) i {| busy := None; crit := crit c; todo := todo c |},
                [EReturn i k (RBool true)])
      | Some (k, id :: ids) =>
          match lookup (by_id (data s)) id with
          | None => Some (put_client s (data s) i {| busy := Some (k, ids); crit := crit c; todo := todo c |}, [])
          | Some t =>
              if in_callback s (ser t) then None
              else Some (put_client s (fst (cancel (data s) id)) i
                           {| busy := Some (k, ids); crit := crit c; todo := todo c |},
                         [EErase (Some i) (ser t)])
          end
      | None =>
          match crit c with
          | Some [] => Some (put_client s (data s) i {| busy := None; crit := None; todo := todo c |}, [])
          | Some (k :: ks) => call_step s i k (Some ks) (todo c)
          | None =>
              match todo c with
              | [] => None
              | Do k :: rest => call_step s i k None rest
              | Sync ks :: rest =>
                  if sync_free s then
                    Some (put_client s (data s) i {| busy := None; crit := Some ks; todo := rest |}, [])
                  else None
              end
          end
      end
  end.

(** A schedule says which thread moves, and the clock when the worker does. *)
Inductive choice := MoveWorker (now : N) | MoveClient (i : nat).
Definition move (s : state) (c : choice) : option (state * list event) :=
  match c with MoveWorker now => wstep s now | MoveClient i => cstep s i end.
Fixpoint exec (s : state) (cs : list choice) : option (state * list event) :=
  match cs with
  | [] => Some (s, [])
  | c :: cs => match move s c with
               | Some (s1, ev) => match exec s1 cs with
                                  | Some (s2, evs) => Some (s2, ev ++ evs)
                                  | None => None
                                  end
               | None => None
               end
  end.
End Threads.

Definition start (programs : list (list stmt)) : state :=
  {| data := init; worker := WIdle;
     clients := map (fun p => {| busy := None; crit := None; todo := p |}) programs |}.
