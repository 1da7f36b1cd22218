(** What the users of a socket count on, in terms of the calls so far. *)
From Verif Require Import Prelude Table Socket.
Open Scope N_scope.

(** The file that the socket [a] was given and did not give away *)
Definition given (out : list effect) : option N :=
  match out with [Created _ i] => Some i | _ => None end.

Fixpoint holds (h : list (op * list effect)) (a : N) : option N :=
  match h with
  | [] => None
  | (Make b _, out) :: h' => if a =? b then given out else holds h' a
  | (Move b c, _) :: h' => if a =? b then None else if a =? c then holds h' b else holds h' a
  | (Close b _ _, _) :: h' | (Destroy b _ _, _) :: h' => if a =? b then None else holds h' a
  | _ :: h' => holds h' a
  end.

(** The socket an operation is about *)
Definition about (o : op) : option N :=
  match o with
  | Make a _ | Recv a _ | Send a _ | Connected a _ | Close a _ _ | Destroy a _ _ | Watch a _ | Unwatch a => Some a
  | _ => None
  end.

(** The file was opened for a socket *)
Fixpoint born (h : list (op * list effect)) (i : N) : Prop :=
  match h with
  | [] => False
  | (Make _ _, out) :: h' => given out = Some i \/ born h' i
  | _ :: h' => born h' i
  end.

(** How many times the file [i] was closed *)
Definition closes_in (i : N) (out : list effect) : nat :=
  length (filter (fun e => match e with Sys CClose _ (Some j) => j =? i | _ => false end) out).
Fixpoint closes (i : N) (h : list (op * list effect)) : nat :=
  match h with [] => O | (_, out) :: h' => (closes_in i out + closes i h')%nat end.

Definition moves (o : op) : bool := match o with Move _ _ => true | _ => false end.

(** No socket was moved *)
Definition still (h : list (op * list effect)) : Prop := forall e, In e h -> moves (fst e) = false.

(** The socket asked for callbacks and did not stop or close since *)
Fixpoint asked (h : list (op * list effect)) (a : N) : bool :=
  match h with
  | [] => false
  | (Watch b _, _) :: h' => if a =? b then true else asked h' a
  | (Unwatch b, _) :: h' | (Close b _ _, _) :: h' | (Destroy b _ _, _) :: h' | (Make b _, _) :: h' => if a =? b then false else asked h' a
  | _ :: h' => asked h' a
  end.

(** The connection is up: it was accepted, or it completed in time, the peer is known and no
    error is pending *)
Definition established (w : network) : Prop :=
  (exists f, n_socket w = Some f) /\ n_host w = true
  /\ (exists e, n_connect w = Failed e /\ (e = EAGAIN \/ e = EINPROGRESS) \/ n_connect w = Got e)
  /\ (exists n k, settle (n_poll w) = Some (Got (N.succ n), k))
  /\ n_peer w = true /\ n_option w = true /\ n_error w = 0.
