(** Model of the asynchronous task manager: the state protected by
    internal_mutex_ and the critical sections that change it.
    Source: model/setup/async_manager.cc (AsyncTaskManager). The interleaving
    of the critical sections is in AsyncThreads.v. *)
From Verif Require Import Prelude Table.
Open Scope N_scope.

(** async_manager.cc:353-383. [ser] stands for the identity of the Task object
    (its address); [cb] names the callback; time is in clock ticks. *)
Record task := { ser : N; tid : N; time : N; period : option N; user : N; cb : N }.

(** async_manager.cc:368-370 *)
Definition before (a b : task) : bool :=
  (time a <? time b) || ((time a =? time b) && (tid a <? tid b)).

(** std::set with task_p_comparator, 386-390: ordered, equivalent elements are
    not inserted twice, erase removes the equivalent element. *)
Fixpoint q_insert (t : task) (q : list task) : list task :=
  match q with
  | [] => [t]
  | x :: q' => if before t x then t :: q else if before x t then x :: q_insert t q' else q
  end.
Definition equivalent (a b : task) : bool := negb (before a b) && negb (before b a).
Definition q_erase (t : task) (q : list task) : list task := filter (fun x => negb (equivalent x t)) q.

(** 510-520 *)
Record sched := {
  last_id : N;
  next_ser : N;
  by_id : table task;
  by_user : table (list N);
  queue : list task
}.
Definition init : sched :=
  {| last_id := 0; next_ser := 0; by_id := []; by_user := []; queue := [] |}.

(** 90-93 *)
Definition next_id (id : N) : N := if id =? 65535 then 1 else id + 1.

(** 422-424: the do-while loop; [None] when the fuel is exhausted. At most
    [length m] identifiers are in use so S (length m) turns are enough
    whenever the loop ends at all (proved in AsyncTasksProofs.v). *)
Fixpoint search (m : table task) (fuel : nat) (last : N) : option N :=
  match fuel with
  | O => None
  | S f => let n := next_id last in if has m n then search m f n else Some n
  end.

Definition ids_of (m : table (list N)) (u : N) : list N :=
  match lookup m u with Some l => l | None => [] end.

(** 415-441 (and 286-298): [t] is the time now() + delay. Starting the thread
    is not modelled: it is assumed to succeed. *)
Definition schedule (s : sched) (u t : N) (p : option N) (c : N) : option (sched * N) :=
  if lenN (by_id s) =? 65535 then Some (s, 0)
  else
    match search (by_id s) (S (length (by_id s))) (last_id s) with
    | None => None
    | Some id =>
        let tk := {| ser := next_ser s; tid := id; time := t; period := p; user := u; cb := c |} in
        Some ({| last_id := id; next_ser := next_ser s + 1;
                 by_id := put (by_id s) id tk;
                 by_user := put (by_user s) u (set_insert id (ids_of (by_user s) u));
                 queue := q_insert tk (queue s) |}, id)
    end.

(** 392-413 *)
Definition cancel (s : sched) (id : N) : sched * bool :=
  match lookup (by_id s) id with
  | None => (s, false)
  | Some t =>
      ({| last_id := last_id s; next_ser := next_ser s; by_id := erase (by_id s) id;
          by_user := by_user s; queue := q_erase t (queue s) |}, true)
  end.

(** 308-319 *)
Definition cancel_user (s : sched) (u : N) : sched * bool :=
  match lookup (by_user s) u with
  | None => (s, false)
  | Some ids =>
      let s1 := fold_left (fun s id => fst (cancel s id)) ids s in
      ({| last_id := last_id s1; next_ser := next_ser s1; by_id := by_id s1;
          by_user := erase (by_user s1) u; queue := queue s1 |}, true)
  end.

(** 467-484: the worker looks at the first task, [now] being the clock. *)
Definition pick (s : sched) (now : N) : sched * option task :=
  match queue s with
  | [] => (s, None)
  | t :: _ =>
      if time t <? now then
        let q := q_erase t (queue s) in
        match period t with
        | Some p =>
            let t' := {| ser := ser t; tid := tid t; time := time t + p; period := period t;
                         user := user t; cb := cb t |} in
            ({| last_id := last_id s; next_ser := next_ser s; by_id := put (by_id s) (tid t) t';
                by_user := by_user s; queue := q_insert t' q |}, Some t)
        | None =>
            ({| last_id := last_id s; next_ser := next_ser s; by_id := erase (by_id s) (tid t);
                by_user := put (by_user s) (user t) (set_erase (tid t) (ids_of (by_user s) (user t)));
                queue := q |}, Some t)
        end
      else (s, None)
  end.

(** 332-341: stopThread, the part under the mutex *)
Definition stop (s : sched) : sched :=
  {| last_id := last_id s; next_ser := next_ser s; by_id := []; by_user := by_user s; queue := [] |}.

Inductive op :=
| Schedule (u t : N) (p : option N) (c : N)
| Cancel (id : N)
| CancelUser (u : N)
| Pick (now : N)
| Stop.
Inductive result := RId (id : N) | RBool (b : bool) | RTask (t : option task) | RUnit.

(** [None]: the operation never returns. *)
Definition step (s : sched) (o : op) : option (sched * result) :=
  match o with
  | Schedule u t p c =>
      match schedule s u t p c with Some (s', id) => Some (s', RId id) | None => None end
  | Cancel id => let '(s', b) := cancel s id in Some (s', RBool b)
  | CancelUser u => let '(s', b) := cancel_user s u in Some (s', RBool b)
  | Pick now => let '(s', t) := pick s now in Some (s', RTask t)
  | Stop => Some (stop s, RUnit)
  end.

Fixpoint run (s : sched) (ops : list op) : option (sched * list result) :=
  match ops with
  | [] => Some (s, [])
  | o :: ops' =>
      match step s o with
      | None => None
      | Some (s1, r) =>
          match run s1 ops' with
          | None => None
          | Some (s2, rs) => Some (s2, r :: rs)
          end
      end
  end.
