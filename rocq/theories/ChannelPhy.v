(** The packets on the channel, for the topologies of the simulator. *)
From Verif Require Import Prelude Table Address PhyModel PhyModelSpec PhyModelProofs Channel ChannelSpec ChannelProofs.
Open Scope N_scope.

(** Who hears a device in a topology (C20). *)
Definition hearers (topology : model) (ty : phy_type) (d : N) : list N :=
  match send topology d ty with Some l => l | None => [] end.

Section Phy.
Context {P X : Type}.
Variable think : N -> X -> P -> Z -> X * list P.
Variable work : N -> Z -> X -> X * list P.
Variable read : N -> Z -> X -> X * option P.
Variable write : N -> X -> P -> X.
Variable advert : list N -> P.

Lemma heard_on_layer p ops topology ty layer m l (s : state P (device P X)) o r :
  PhyModel.run (init p) ops = Some topology -> careful_run (init p) ops = true -> of_type topology ty = [layer] ->
  Channel.run (hearers topology ty) (tick_device work read advert) (receive_device think write) (start m) l = Some (s, o) -> idle s ->
  (forall d q, In (d, q) (sent o) -> present topology d) ->
  heard r o = filter (fun x => negb (r =? fst x) && is_attached topology layer (fst x) && is_attached topology layer r) (sent o).
Proof.
  intros R C T H I PR. rewrite (heard_in_order _ _ _ _ _ _ _ r (devices_discreet think write) H I).
  induction (sent o) as [|[d q] rest IH]; [reflexivity|]. cbn [meant flat_map filter fst].
  destruct (send_once p ops topology d ty layer R C (PR d q (or_introl eq_refl)) T) as (rs & E & K).
  unfold hearers at 1. rewrite E, K. unfold meant in IH. rewrite IH by (intros e x Y; apply (PR e x); now right).
  destruct (negb (r =? d) && is_attached topology layer d && is_attached topology layer r); reflexivity.
Qed.
End Phy.
