(** Two BR/EDR controllers in range of each other. The packets that one sends and that are
    addressed to the other, or to all, reach it in the order in which they were sent, after
    any delay. Other devices may send anything at any time. *)
From Verif Require Import Prelude Table Sco Bredr BredrBase BredrSpec.
Open Scope N_scope.

Inductive side := Left | Right.
Record world := World {
  left : bredr; right : bredr;
  to_right : list air;   (* sent by the left one, not yet received by the right one *)
  to_left : list air }.

Definition packets (out : list output) : list air := flat_map (fun o => match o with Sent p => [p] | _ => [] end) out.
Definition addressed (a : addr) (p : air) : bool := list_eqb (destination p) empty_address || list_eqb (destination p) a.

(** A packet of another device: its address is not that of the peer, and it has one *)
Definition foreign (peer : addr) (o : op) : Prop :=
  match o with Receive _ p => source p <> peer /\ source p <> empty_address | _ => True end.

Section Pair.
Variables (order1 order2 : table sco_link -> table sco_link) (cfg1 cfg2 : config) (a b : addr).

(** One operation of one of them: its host, the clock or another device, or the first packet
    of the other one *)
Inductive moves (w : world) : side -> entry -> world -> Prop :=
| left_acts : forall now o s st out, foreign b o -> step order1 cfg1 now (left w) o = Ok (s, st, out) ->
    moves w Left (Entry now o st out) (World s (right w) (to_right w ++ filter (addressed b) (packets out)) (to_left w))
| left_hears : forall now rssi p l s st out, to_left w = p :: l -> step order1 cfg1 now (left w) (Receive rssi p) = Ok (s, st, out) ->
    moves w Left (Entry now (Receive rssi p) st out) (World s (right w) (to_right w ++ filter (addressed b) (packets out)) l)
| right_acts : forall now o s st out, foreign a o -> step order2 cfg2 now (right w) o = Ok (s, st, out) ->
    moves w Right (Entry now o st out) (World (left w) s (to_right w) (to_left w ++ filter (addressed a) (packets out)))
| right_hears : forall now rssi p l s st out, to_right w = p :: l -> step order2 cfg2 now (right w) (Receive rssi p) = Ok (s, st, out) ->
    moves w Right (Entry now (Receive rssi p) st out) (World (left w) s l (to_left w ++ filter (addressed a) (packets out))).

(** The histories of both since they were powered on; the latest operation is first, and the
    clock of each never goes back *)
Inductive reaches : list entry -> list entry -> world -> Prop :=
| together : reaches [] [] (World (new_bredr a) (new_bredr b) [] [])
| left_moves : forall hl hr w e w', reaches hl hr w -> moves w Left e w' -> timely (e :: hl) -> reaches (e :: hl) hr w'
| right_moves : forall hl hr w e w', reaches hl hr w -> moves w Right e w' -> timely (e :: hr) -> reaches hl (e :: hr) w'.

(** From [w0] to [w] with the operations [nl] and [nr], and [K] holds all the time *)
Inductive meanwhile (K : world -> Prop) (hl hr : list entry) (w0 : world) : list entry -> list entry -> world -> Prop :=
| at_first : reaches hl hr w0 -> K w0 -> meanwhile K hl hr w0 [] [] w0
| left_goes : forall nl nr w e w', meanwhile K hl hr w0 nl nr w -> moves w Left e w' -> timely (e :: nl ++ hl) -> K w' -> meanwhile K hl hr w0 (e :: nl) nr w'
| right_goes : forall nl nr w e w', meanwhile K hl hr w0 nl nr w -> moves w Right e w' -> timely (e :: nr ++ hr) -> K w' -> meanwhile K hl hr w0 nl (e :: nr) w'.
End Pair.

Definition flip (w : world) : world := World (right w) (left w) (to_left w) (to_right w).

(** The packets a controller is about to send *)
Definition air_of (s : bredr) : list air := flat_map (fun t => match what_to_do t with Transmit p => [p] | _ => [] end) (queue s).
(** Everything on its way from left to right: in the air, then still to be sent; and back *)
Definition way_right (b : addr) (w : world) : list air := to_right w ++ filter (addressed b) (air_of (left w)).
Definition way_left (a : addr) (w : world) : list air := to_left w ++ filter (addressed a) (air_of (right w)).
