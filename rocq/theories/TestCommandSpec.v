(** What the text of a test command asks for. *)
From Coq Require Import String.
From Verif Require Import Prelude Table Address AddressSpec PhyModel TestCommand TestCommandProofs.
Open Scope N_scope.

(** [s] is the decimal text of an identifier. *)
Definition writes (s : list N) (v : N) : Prop := decimal s v /\ (hd 0 s = 48 -> s = [48]) /\ v < 2 ^ 32.

Inductive requests : list N -> list (list N) -> list effect -> Prop :=
| r_del t d : writes t d -> requests (str "del") [t] [ETopology (RemoveDevice d)]
| r_add_phy_le : requests (str "add_phy") [str "LOW_ENERGY"] [ETopology (AddPhy LowEnergy)]
| r_add_phy_bredr : requests (str "add_phy") [str "BR_EDR"] [ETopology (AddPhy BrEdr)]
| r_del_phy t l : writes t l -> requests (str "del_phy") [t] [ETopology (RemovePhy l)]
| r_attach t u d l : writes t d -> writes u l ->
    requests (str "add_device_to_phy") [t; u] [ETopology (AddToPhy d l)]
| r_detach t u d l : writes t d -> writes u l ->
    requests (str "del_device_from_phy") [t; u] [ETopology (RemoveFromPhy d l)]
| r_address t u d a : writes t d -> documented u a ->
    requests (str "set_device_address") [t; u] [ETopology (SetAddress d a)]
| r_period t p : writes t p -> p <> 0 -> requests (str "set_timer_period") [t] [ETimer (SetPeriod p)]
| r_start : requests (str "start_timer") [] [ETimer StartTimer]
| r_stop : requests (str "stop_timer") [] [ETimer StopTimer]
| r_reset : requests (str "reset") [] [ETimer StopTimer; ETopology Reset].
