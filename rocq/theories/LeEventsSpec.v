(** Vocabulary of the property about the number of events of an advertising set that
    advertises on its own, so that every advertising packet is one of its events. *)
From Verif Require Import Prelude Address Rpa Table LeTypes LeAdvertise LeHost LeHistory LeFilterSpec LeTimeSpec.
Open Scope N_scope.

(** No set but [x] is ever enabled; it always is for a number of events (one byte) *)
Definition alone (x : N) (e : entry) : Prop :=
  limited e /\ match what e with Command (SetExtEnable true l) => forall d, In d l -> en_handle d = x | _ => True end.

(** The advertising packets sent since the set [x] was last enabled *)
Fixpoint adverts_since (x : N) (h : list entry) : N :=
  match h with
  | [] => 0
  | e :: h =>
      match what e, status_of e with
      | Command (SetExtEnable true l), Some SUCCESS =>
          match find (fun d => en_handle d =? x) l with
          | Some _ => 0
          | None => adverts (sent e) + adverts_since x h
          end
      | _, _ => adverts (sent e) + adverts_since x h
      end
  end.
