(** Vocabulary for asynchronous tasks. *)
From Verif Require Import Prelude Table AsyncTasks.
Open Scope N_scope.

Definition reachable (s : sched) : Prop := exists ops rs, run init ops = Some (s, rs).

(** The tasks waiting in the manager. *)
Definition pending (s : sched) (t : task) : Prop := lookup (by_id s) (tid t) = Some t.
Definition pending_count (s : sched) : N := lenN (by_id s).

(** The one-shot tasks run during a history, by object identity. *)
Definition ran (r : result) : list task := match r with RTask (Some t) => [t] | _ => [] end.
Definition one_shot (t : task) : bool := match period t with None => true | Some _ => false end.
Definition one_shots_ran (rs : list result) : list N :=
  map ser (filter one_shot (flat_map ran rs)).

(** The number of tasks accepted in a history. *)
Definition accepted (r : result) : bool := match r with RId id => negb (id =? 0) | _ => false end.
Definition accepted_count (rs : list result) : N := lenN (filter accepted rs).

Definition is_cancel (o : op) : bool := match o with Cancel _ | Stop => true | _ => false end.
