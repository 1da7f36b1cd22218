(** Model of the internal scheduler of the controllers:
    model/controller/le_controller.cc:6654-6710 and model/controller/bredr_controller.cc:2329-2383
    (the same code), with the class Task of le_controller.h:966-991.
    Callbacks are arbitrary: they are modelled by the calls they make, so that a tick is
    the sequence of a [Tick], then for each task run a [Turn], any calls of [Schedule] and
    [Cancel], and a [Return], and finally a [Turn] which ends the loop. *)
From Verif Require Import Prelude.
Open Scope N_scope.

(** le_controller.h:966-991; [name] stands for the callback, and tells apart the tasks *)
Record task := Task { time : Z; id : N; period : option Z; name : N }.

(** le_controller.h:980-982 *)
Definition before (a b : task) : bool :=
  (time a <? time b)%Z || ((time a =? time b)%Z && (id a <? id b)).

(** std::set<Task>: ordered, equivalent elements are not inserted twice *)
Fixpoint insert (t : task) (q : list task) : list task :=
  match q with
  | [] => [t]
  | x :: q' => if before t x then t :: q else if before x t then x :: insert t q' else q
  end.

(** The events tell what happened *)
Inductive event :=
| EvClock (now : Z)
| EvSchedule (n i : N) (due : Z) (p : option Z)   (* a task was scheduled, with the identifier returned *)
| EvCancel (i : N) (n : option N)                 (* a cancellation, and the task it removed *)
| EvTick (now : Z)                                (* Tick was called *)
| EvRun (n : N) (now : Z)                         (* the callback of a task was called *)
| EvReturn (n : N)                                (* it returned *)
| EvTickEnd (now : Z).                            (* the scheduler returned *)

(** le_controller.h:995-996, the clock, and the local variables of RunPendingTasks: the
    time [now] while it runs, and the task whose callback is running. [count] is the
    number of tasks scheduled, used to name them. *)
Record sched := Sched {
  queue : list task; counter : N; clock : Z; ticking : option Z; current : option task; count : N }.

Definition init (now : Z) : sched := Sched [] 0 now None None 0.

Definition wrap32 (n : N) : N := n mod 4294967296.

(** le_controller.cc:6654-6662 NextTaskId: the loop, from the value [c] of the counter;
    [None] when [fuel] is exhausted *)
Fixpoint next_id (fuel : nat) (q : list task) (c : N) : option (N * N) :=
  match fuel with
  | O => None
  | S f => if (c =? 0) || existsb (fun t => id t =? c) q
           then next_id f q (wrap32 (c + 1))
           else Some (c, wrap32 (c + 1))
  end.

(** le_controller.cc:6679-6687 CancelScheduledTask *)
Fixpoint cancel (i : N) (q : list task) : list task * option N :=
  match q with
  | [] => ([], None)
  | t :: q => if id t =? i then (q, Some (name t))
              else let '(q', r) := cancel i q in (t :: q', r)
  end.

Inductive op :=
| Advance (d : N)                          (* time passes *)
| Schedule (delay : Z) (p : option Z)
| Cancel (i : N)
| Tick
| Turn                                     (* an iteration of the loop, up to the callback *)
| Return.                                  (* the callback returns *)

(** The host's calls and the callbacks are run by the same thread: between two
    iterations there is none. *)
Definition in_code (s : sched) : bool :=
  match ticking s, current s with Some _, None => false | _, _ => true end.

Inductive outcome := Next (s : sched) (e : event) | Stuck | Not_possible.

Definition step (s : sched) (o : op) : outcome :=
  match o with
  | Advance d =>
      let now := (clock s + Z.of_N d)%Z in
      Next (Sched (queue s) (counter s) now (ticking s) (current s) (count s)) (EvClock now)
  | Schedule delay p =>                                 (* 6664-6677 *)
      if negb (in_code s) then Not_possible
      else
        match next_id (S (S (length (queue s)))) (queue s) (counter s) with
        | None => Stuck
        | Some (i, c) =>
            let t := Task (clock s + delay) i p (count s) in
            Next (Sched (insert t (queue s)) c (clock s) (ticking s) (current s) (count s + 1))
                 (EvSchedule (count s) i (time t) p)
        end
  | Cancel i =>
      if negb (in_code s) then Not_possible
      else let '(q, r) := cancel i (queue s) in
           Next (Sched q (counter s) (clock s) (ticking s) (current s) (count s)) (EvCancel i r)
  | Tick =>                                             (* 6690 *)
      match ticking s with
      | Some _ => Not_possible
      | None => Next (Sched (queue s) (counter s) (clock s) (Some (clock s)) None (count s)) (EvTick (clock s))
      end
  | Turn =>                                             (* 6691-6699 *)
      match ticking s, current s with
      | Some now, None =>
          match queue s with
          | t :: q =>
              if (now <? time t)%Z
              then Next (Sched (queue s) (counter s) (clock s) None None (count s)) (EvTickEnd now)
              else Next (Sched q (counter s) (clock s) (Some now) (Some t) (count s)) (EvRun (name t) now)
          | [] => Next (Sched [] (counter s) (clock s) None None (count s)) (EvTickEnd now)
          end
      | _, _ => Not_possible
      end
  | Return =>                                           (* 6701-6707 *)
      match ticking s, current s with
      | Some now, Some t =>
          Next (Sched (match period t with
                       | Some p => insert (Task (now + p) (id t) (Some p) (name t)) (queue s)
                       | None => queue s
                       end) (counter s) (clock s) (Some now) None (count s)) (EvReturn (name t))
      | _, _ => Not_possible
      end
  end.

(** The events so far, latest first *)
Inductive history : list event -> sched -> Prop :=
| start : forall now, history [] (init now)
| after : forall h s o s' e, history h s -> step s o = Next s' e -> history (e :: h) s'.

(** Playing a list of operations *)
Fixpoint play (s : sched) (ops : list op) : option (sched * list event) :=
  match ops with
  | [] => Some (s, [])
  | o :: ops =>
      match step s o with
      | Next s' e => match play s' ops with Some (s2, h) => Some (s2, h ++ [e]) | None => None end
      | _ => None
      end
  end.
