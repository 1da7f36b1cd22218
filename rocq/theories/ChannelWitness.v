(** Histories of a channel. *)
From Verif Require Import Prelude Table Address PhyModel PhyModelSpec Channel ChannelSpec ChannelProofs ChannelPhy.
Open Scope N_scope.

(** A beacon (0), and two controllers (1 and 2) that count what they hear; 1 answers the
    packets of the beacon (10), once for each, with 20, and 2 says 30 in each tick. *)
Definition counts (d : N) (x : N) (p : N) (_ : Z) : N * list N := (x + 1, if (d =? 1) && (p =? 10) then [20] else []).
Definition says (d : N) (_ : Z) (x : N) : N * list N := (x, if d =? 2 then [30] else []).
Definition nothing (_ : N) (_ : Z) (x : N) : N * option N := (x, None).
Definition ignores (_ x _ : N) : N := x.
Definition world (d : N) : device N N :=
  if d =? 0 then Beacon {| address := [1]; interval := 100; last := 0 |} else Controller 0 [].
Definition topology_ops : list op := [AddPhy LowEnergy; AddHci (Some [1]); AddHci (Some [2]); AddHci (Some [3])].
Definition two_ticks : list input :=
  Tick [0; 1; 2] :: repeat (Go 150) 27 ++ Tick [0; 1; 2] :: repeat (Go 200) 19.

Lemma channel_witness : exists topology s o,
  PhyModel.run (init [0; 0; 0; 0]) topology_ops = Some topology /\ careful_run (init [0; 0; 0; 0]) topology_ops = true
  /\ of_type topology LowEnergy = [0]
  /\ Channel.run (hearers topology LowEnergy) (tick_device says nothing (fun _ => 10)) (receive_device counts ignores) (start world) two_ticks = Some (s, o)
  /\ idle s /\ (forall d q, In (d, q) (sent o) -> present topology d)
  /\ sent o = [(0, 10); (1, 20); (2, 30)] /\ heard 0 o = [(1, 20); (2, 30)] /\ heard 1 o = [(0, 10); (2, 30)]
  /\ ticks_of (hearers topology LowEnergy) (tick_device says nothing (fun _ => 10)) (receive_device counts ignores) 0 (start world) two_ticks = [150; 200]%Z
  /\ sent_by 0 o = [10]
  /\ given (hearers topology LowEnergy) (tick_device says nothing (fun _ => 10)) (receive_device counts ignores) 2 (start world) two_ticks = [30; 30]
  /\ sent_by 2 o = [30].
Proof.
  pose (topology := match PhyModel.run (init [0; 0; 0; 0]) topology_ops with Some t => t | None => init [] end).
  destruct (Channel.run (hearers topology LowEnergy) (tick_device says nothing (fun _ => 10)) (receive_device counts ignores) (start world) two_ticks) as [[s o]|] eqn:R.
  2:{ exfalso. generalize (f_equal (fun x => match x with Some _ => true | None => false end) R). vm_compute. discriminate. }
  assert (E : option_map (fun x => (stack (fst x), snd x))
    (Channel.run (hearers topology LowEnergy) (tick_device says nothing (fun _ => 10)) (receive_device counts ignores) (start world) two_ticks)
    = Some ([], [Sent 0 10; Heard 1 0 10 (-5); Heard 2 0 10 (-10); Sent 1 20; Heard 0 1 20 (-15); Heard 2 1 20 (-20);
                 Sent 2 30; Heard 0 2 30 (-25); Heard 1 2 30 (-30)])) by (vm_compute; reflexivity).
  rewrite R in E. cbn [option_map fst snd] in E. injection E as E ->.
  exists topology, s. eexists. split; [vm_compute; reflexivity|]. split; [vm_compute; reflexivity|]. split; [vm_compute; reflexivity|]. split; [exact R|].
  split; [exact E|]. split.
  { cbn. intros d q H. repeat (destruct H as [H|H]; [injection H as <- _; vm_compute; tauto|]). destruct H. }
  repeat apply conj; vm_compute; reflexivity.
Qed.

(** Devices that answer from within the reception, here each packet: the call never ends. *)
Lemma endless : exists (receivers : N -> list N) (program : prog N unit) s o,
  Channel.run receivers (fun _ _ => program) (fun _ _ _ => program) (start (fun _ => tt)) [Tick [0]] = Some (s, o)
  /\ ~ ends receivers (fun _ _ => program) (fun _ _ _ => program) s.
Proof.
  set (rc := fun d : N => if d =? 0 then [1] else [0]). set (pr := Emit 7 Return : prog N unit).
  exists rc, pr. do 2 eexists. split; [reflexivity|].
  assert (K : forall s, ends rc (fun _ _ => pr) (fun _ _ _ => pr) s ->
    (exists d q, stack s = Waiting d :: q \/ stack s = Running d pr :: q \/ exists x, stack s = Delivering d 7 [x] :: q) -> False).
  { induction 1 as [s _ IH]. intros (d & q & [S|[S|[x S]]]).
    - eapply (IH 0%Z); [unfold step; rewrite S; reflexivity|]. cbn. eauto 6.
    - eapply (IH 0%Z); [unfold step; rewrite S; reflexivity|]. cbn. do 2 eexists. right. right.
      unfold rc. destruct (d =? 0); eexists; reflexivity.
    - eapply (IH 0%Z); [unfold step; rewrite S; reflexivity|]. cbn. eauto 6. }
  intros E. apply (K _ E). cbn. eauto.
Qed.

(** Or it ends, and a third device hears the packets of one device in reverse. *)
Definition answers (d p : N) (_ : Z) : prog N unit :=
  if (d =? 2) && (p =? 0) then Emit 1 Return else if (d =? 1) && (p =? 1) then Emit 2 Return else Return.
Lemma reversed : exists (receivers : N -> list N) (tick : N -> Z -> prog N unit) l s o,
  Channel.run receivers tick answers (start (fun _ => tt)) l = Some (s, o) /\ idle s
  /\ sent o = [(1, 0); (2, 1); (1, 2)] /\ meant receivers 3 (sent o) = [(1, 0); (2, 1); (1, 2)]
  /\ heard 3 o = [(1, 2); (2, 1); (1, 0)].
Proof.
  exists (fun d => if d =? 1 then [2; 3] else if d =? 2 then [1; 3] else [1; 2]), (fun _ _ => Emit 0 Return), (Tick [1] :: repeat (Go 0) 20).
  do 2 eexists. split; [lazy; reflexivity|]. repeat apply conj; vm_compute; reflexivity.
Qed.
