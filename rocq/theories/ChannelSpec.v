(** Vocabulary for the packets on a channel. *)
From Verif Require Import Prelude PhyModelSpec Channel.
Open Scope N_scope.

Section Spec.
Context {P D : Type}.

(** The packets sent, with their senders, and those that a device heard, in order. *)
Definition sent (o : list (event P)) : list (N * P) :=
  flat_map (fun e => match e with Sent d p => [(d, p)] | _ => [] end) o.
Definition heard (r : N) (o : list (event P)) : list (N * P) :=
  flat_map (fun e => match e with Heard x d p _ => if x =? r then [(d, p)] else [] | _ => [] end) o.
(** The packets that a device has to hear: as often as it is attached. *)
Definition meant (receivers : N -> list N) (r : N) (l : list (N * P)) : list (N * P) :=
  flat_map (fun x => repeat x (times r (receivers (fst x)))) l.

(** A program that sends nothing. *)
Inductive silent : prog P D -> Prop :=
| silent_return : silent Return
| silent_do f k : (forall x, silent (k x)) -> silent (Do f k).
(** The devices do not send from within a reception. *)
Definition discreet (receive : N -> P -> Z -> prog P D) : Prop := forall r p n, silent (receive r p n).

(** Nothing is in progress. *)
Definition idle (s : state P D) : Prop := stack s = [].
End Spec.

(** The times at which a beacon sends, when it is ticked at the given times. *)
Fixpoint beacons_at (b : beacon) (l : list Z) : list Z :=
  match l with
  | [] => []
  | t :: l => if due t b then t :: beacons_at {| address := address b; interval := interval b; last := t |} l
              else beacons_at b l
  end.
(** The times at which a device is ticked in a history, and the packets that it sent. *)
Section Ticks.
Context {P D : Type} (receivers : N -> list N) (tick : N -> Z -> prog P D) (receive : N -> P -> Z -> prog P D).
Definition begins (d : N) (s : state P D) (i : input) : list Z :=
  match i, stack s with
  | Go now, Waiting e :: _ => if e =? d then [now] else []
  | _, _ => []
  end.
Fixpoint ticks_of (d : N) (s : state P D) (l : list input) : list Z :=
  match l with
  | [] => []
  | i :: l => match act receivers tick receive s i with
              | Some (s', _) => begins d s i ++ ticks_of d s' l
              | None => []
              end
  end.
Definition sent_by (d : N) (o : list (event P)) : list P :=
  flat_map (fun e => match e with Sent x p => if x =? d then [p] else [] | _ => [] end) o.
End Ticks.

(** The packets that a controller has given to its scheduler in a history: those that a
    step of it adds to the ones that wait. *)
Section Given.
Context {P X : Type} (receivers : N -> list N) (tick : N -> Z -> prog P (device P X)) (receive : N -> P -> Z -> prog P (device P X)).
Definition waits (v : device P X) : list P := match v with Controller _ box => box | _ => [] end.
Definition gives (d : N) (s : state P (device P X)) (i : input) : list P :=
  match i, stack s with
  | Go _, Running e (Do f _) :: _ => if e =? d then skipn (List.length (waits (mem s d))) (waits (f (mem s d))) else []
  | _, _ => []
  end.
Fixpoint given (d : N) (s : state P (device P X)) (l : list input) : list P :=
  match l with
  | [] => []
  | i :: l => match act receivers tick receive s i with
              | Some (s', _) => gives d s i ++ given d s' l
              | None => []
              end
  end.
End Given.
(** From the last packet on, the next one is at the first tick that is at least an interval later. *)
Inductive spaced (interval : Z) : Z -> list Z -> list Z -> Prop :=
| spaced_end last l : (forall t, In t l -> (t - last < interval)%Z) -> spaced interval last l []
| spaced_next last l t r out : (forall x, In x l -> (x - last < interval)%Z) -> (interval <= t - last)%Z ->
    spaced interval t r out -> spaced interval last (l ++ t :: r) (t :: out).

(** Whatever the clock says, the calls in progress come to an end. *)
Inductive ends {P D} receivers tick receive : state P D -> Prop :=
| ends_intro s : (forall now s' o, step receivers tick receive now s = Some (s', o) -> ends receivers tick receive s') ->
    ends receivers tick receive s.
