(** Vocabulary of the own address of periodic advertising. *)
From Verif Require Import Prelude Address Rpa Table LeTypes LeAdvertise LeHost LeHistory LeListsSpec LeFilterSpec LeOwnSpec.
Open Scope N_scope.

(** After the history [h], the address [a] obeys what the host asked for of the set [x] *)
Definition chosen_at (aes : list N -> list N -> list N) (x : N) (h : list entry) (public : list N) (a : address_with_type) : Prop :=
  exists e, set_given x h = Some e /\
    obeys aes h (peer_device_address (e_peer e) (e_peer_kind e)) public (set_random_given x h) (e_own e) a.

(** The host started (again) to advertise with the set [x] *)
Definition restarted (x : N) (e : entry) : bool :=
  match what e, status_of e with
  | Command (SetExtEnable true l), Some SUCCESS => existsb (N.eqb x) (map en_handle l)
  | _, _ => false
  end.

(** The history [h] goes, after [h0], through a command to advertise with the set [x]; the
    commands of this kind that came later were refused *)
Definition last_started (x : N) (h h0 : list entry) : Prop :=
  exists h1 now l st out, h = h1 ++ Entry now (Command (SetExtEnable true l)) st out :: h0
    /\ In x (map en_handle l) /\ forall e, In e h1 -> restarted x e = false.
