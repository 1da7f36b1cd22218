(** Concrete runs of two LE controllers, one of which connects to the other. *)
From Verif Require Import Prelude Address Rpa Table LeTypes LeAdvertise LeLists LeScan LeInitiate LeHost LeHistory LeListsWitness LeParamsWitness LePairSpec.
Open Scope N_scope.

(** A controller does an operation of its own, or hears the next packet of the other *)
Inductive play := PhoneOp (now : N) (o : op) | WatchOp (now : N) (o : op) | PhoneHears (now : N) | WatchHears (now : N).

Section Perform.
Variable aes : list N -> list N -> list N.
Variables rng1 rng2 : N -> N.
Variables cfg1 cfg2 : config.

Definition own (o : op) : bool := match o with Receive _ => false | _ => true end.
Lemma own_ok o : own o = true -> local_step o.
Proof. now destruct o. Qed.

Definition next (p : pair) (x : play) : option (deed * pair) :=
  match x with
  | PhoneOp now o =>
      if own o then
        match step aes rng1 cfg1 now (phone p) o with
        | Ok s _ out => Some (PhoneDoes o (packets out), Pair s (watch p) (to_watch p ++ packets out) (to_phone p))
        | _ => None
        end
      else None
  | WatchOp now o =>
      if own o then
        match step aes rng2 cfg2 now (watch p) o with
        | Ok s _ out => Some (WatchDoes o (packets out), Pair (phone p) s (to_watch p) (to_phone p ++ packets out))
        | _ => None
        end
      else None
  | PhoneHears now =>
      match to_phone p with
      | q :: l =>
          match step aes rng1 cfg1 now (phone p) (Receive q) with
          | Ok s _ out => Some (PhoneDoes (Receive q) (packets out), Pair s (watch p) (to_watch p ++ packets out) l)
          | _ => None
          end
      | [] => None
      end
  | WatchHears now =>
      match to_watch p with
      | q :: l =>
          match step aes rng2 cfg2 now (watch p) (Receive q) with
          | Ok s _ out => Some (WatchDoes (Receive q) (packets out), Pair (phone p) s l (to_phone p ++ packets out))
          | _ => None
          end
      | [] => None
      end
  end.

Lemma next_moves p x m p' : next p x = Some (m, p') -> moves aes rng1 rng2 cfg1 cfg2 p m p'.
Proof.
  destruct x as [now o|now o|now|now]; cbn [next]; intros H.
  - destruct (own o) eqn:O; [|discriminate]. destruct (step _ _ _ _ _ _) eqn:S; try discriminate. injection H as <- <-. eapply phone_does; eauto using own_ok.
  - destruct (own o) eqn:O; [|discriminate]. destruct (step _ _ _ _ _ _) eqn:S; try discriminate. injection H as <- <-. eapply watch_does; eauto using own_ok.
  - destruct (to_phone p) as [|q l] eqn:E; [discriminate|]. destruct (step _ _ _ _ _ _) eqn:S; try discriminate. injection H as <- <-. eapply phone_hears; eauto.
  - destruct (to_watch p) as [|q l] eqn:E; [discriminate|]. destruct (step _ _ _ _ _ _) eqn:S; try discriminate. injection H as <- <-. eapply watch_hears; eauto.
Qed.

Fixpoint perform (p : pair) (l : list play) : option pair :=
  match l with [] => Some p | x :: l => match next p x with Some (_, p) => perform p l | None => None end end.

Lemma perform_anyhow l : forall p p', reaches aes rng1 rng2 cfg1 cfg2 anyhow p -> perform p l = Some p' -> reaches aes rng1 rng2 cfg1 cfg2 anyhow p'.
Proof.
  induction l as [|x l IH]; cbn [perform]; intros p p' R H; [now injection H as <-|]. destruct (next p x) as [[m q]|] eqn:E; [|discriminate].
  apply (IH q); [|exact H]. eapply goes_on; [exact R|exact (next_moves _ _ _ _ E)|exact Logic.I].
Qed.

(** What can be checked of [careful] *)
Definition linked (s : le) (o d : list N) : bool :=
  existsb (fun kv => list_eqb (awt_addr (c_own (snd kv))) o && list_eqb (awt_addr (c_peer (snd kv))) d) (conns s).
Definition carefulb (p : pair) (m : deed) (p' : pair) : bool :=
  match m with
  | WatchDoes (Command (CreateConnection _ _ _ _ | ExtCreateConnection _ _ _ _ _)) _ => false
  | WatchDoes _ _ => true
  | PhoneDoes o sent =>
      forallb (fun q => match q with
                        | AirConnect a adv _ _ _ => negb (linked (phone p) (awt_addr a) (awt_addr adv)) && negb (existsb is_request (to_watch p)) && negb (existsb is_response (to_phone p))
                        | _ => true
                        end) sent &&
      match o with
      | Receive (AirConnectComplete _ _ _ _ _) => negb (Nat.eqb (List.length (conns (phone p'))) (List.length (conns (phone p))))
      | _ => true
      end
  end.
Lemma linked_ok s o d : linked s o d = false -> ~ has_link s o d.
Proof.
  intros H (h & c & I & <- & <-). unfold linked in H. assert (existsb (fun kv : N * le_conn => list_eqb (awt_addr (c_own (snd kv))) (awt_addr (c_own c)) && list_eqb (awt_addr (c_peer (snd kv))) (awt_addr (c_peer c))) (conns s) = true); [|congruence].
  apply existsb_exists. exists (h, c). split; [exact I|]. cbn [snd]. now rewrite !list_eqb_refl.
Qed.
Lemma carefulb_ok p m p' : carefulb p m p' = true -> careful p m p'.
Proof.
  destruct m as [o l|o l]; cbn [carefulb careful].
  - intros H. apply andb_true_iff in H as [H1 H2]. split.
    + intros a adv i lat sup I. rewrite forallb_forall in H1. specialize (H1 _ I). cbn beta iota in H1. apply andb_true_iff in H1 as [H1 H3]. apply andb_true_iff in H1 as [H1 H4].
      apply negb_true_iff in H1, H3, H4. split; [exact (linked_ok _ _ _ H1)|auto].
    + destruct o as [c|[]|]; auto. intros E. rewrite E, Nat.eqb_refl in H2. discriminate.
  - destruct o as [[]| |]; auto; discriminate.
Qed.

Fixpoint perform_careful (p : pair) (l : list play) : option pair :=
  match l with
  | [] => Some p
  | x :: l => match next p x with Some (m, p') => if carefulb p m p' then perform_careful p' l else None | None => None end
  end.
Lemma perform_careful_reaches l : forall p p', reaches aes rng1 rng2 cfg1 cfg2 careful p -> perform_careful p l = Some p' -> reaches aes rng1 rng2 cfg1 cfg2 careful p'.
Proof.
  induction l as [|x l IH]; cbn [perform_careful]; intros p p' R H; [now injection H as <-|]. destruct (next p x) as [[m q]|] eqn:E; [|discriminate].
  destruct (carefulb p m q) eqn:C; [|discriminate].
  apply (IH q); [|exact H]. eapply goes_on; [exact R|exact (next_moves _ _ _ _ E)|exact (carefulb_ok _ _ _ C)].
Qed.
End Perform.

Local Notation call := (PhoneOp 1 (Command (CreateConnection USE_PEER_ADDRESS remote OWN_PUBLIC usual))).
Local Notation advertise t := (WatchOp t (Command (SetAdvEnable true))).
(** An event of the advertiser, and the packet arrives *)
Local Notation found t := (WatchOp t Tick).
Local Notation hears t := (PhoneHears t).
Local Notation start := (Pair (new_le local) (new_le dev) [] []).

Local Ltac carefully l :=
  match goal with |- reaches ?aes ?r1 ?r2 ?c1 ?c2 careful _ => eapply (perform_careful_reaches aes r1 r2 c1 c2 l start); [apply switched_on|vm_compute; reflexivity] end.
Local Ltac somehow l :=
  match goal with |- reaches ?aes ?r1 ?r2 ?c1 ?c2 anyhow _ => eapply (perform_anyhow aes r1 r2 c1 c2 l start); [apply switched_on|vm_compute; reflexivity] end.

(** Connected, and nothing under way *)
Lemma connected_witness : forall aes rng, exists p c c', reaches aes rng rng default_config default_config careful p /\ at_rest p /\
  conns (phone p) = [(512, c)] /\ conns (watch p) = [(512, c')] /\ c_peer c = remote /\ c_interval c = 40 /\ c_central c = true /\ c_central c' = false.
Proof.
  intros aes rng. eexists _, _, _. split.
  - carefully [call; advertise 2; found 10000000; hears 10000001; WatchHears 10000002; hears 10000003].
  - repeat split.
Qed.

(** The watch has closed the connection, and the phone does not know yet *)
Lemma closing_witness : forall aes rng, exists p c r, reaches aes rng rng default_config default_config careful p /\
  conns (phone p) = [(512, c)] /\ conns (watch p) = [] /\ to_phone p = [AirDisconnect (awt_addr (c_peer c)) (awt_addr (c_own c)) r].
Proof.
  intros aes rng. eexists _, _, _. split.
  - carefully [call; advertise 2; found 10000000; hears 10000001; WatchHears 10000002; hears 10000003; WatchOp 10000004 (Command (Disconnect 512 19 19))].
  - repeat split.
Qed.

(** The watch has accepted, and the phone does not know yet *)
Lemma answered_witness : forall aes rng, exists p c, reaches aes rng rng default_config default_config careful p /\
  conns (phone p) = [] /\ conns (watch p) = [(512, c)] /\ to_watch p = [].
Proof.
  intros aes rng. eexists _, _. split.
  - carefully [call; advertise 2; found 10000000; hears 10000001; WatchHears 10000002].
  - repeat split.
Qed.

(** The phone resets while its request is under way: the watch has a connection that the phone does not have *)
Lemma half_open : forall aes rng, exists p c, reaches aes rng rng default_config default_config anyhow p /\ at_rest p /\
  conns (phone p) = [] /\ conns (watch p) = [(512, c)] /\ to_watch p = [] /\ to_phone p = [].
Proof.
  intros aes rng. eexists _, _. split.
  - somehow [call; advertise 2; found 10000000; hears 10000001; PhoneOp 10000002 (Command Reset); WatchHears 10000003; hears 10000004].
  - repeat split.
Qed.

(** Two connections between the same addresses; the phone closes one of them, and the watch the other one *)
Lemma mixed_up : forall aes rng, exists p c c', reaches aes rng rng default_config default_config anyhow p /\ at_rest p /\
  conns (phone p) = [(513, c)] /\ conns (watch p) = [(512, c')] /\ c_peer c = c_own c' /\ c_own c = c_peer c' /\ c_interval c = 24 /\ c_interval c' = 40.
Proof.
  intros aes rng. eexists _, _, _. split.
  - somehow [call; advertise 2; found 10000000; hears 10000001; WatchHears 10000002; hears 10000003;
             PhoneOp 10000004 (Command (CreateConnection USE_PEER_ADDRESS remote OWN_PUBLIC (InitPhy false 96 48 24 24 0 500 0 0))); advertise 10000005; found 20000000; hears 20000001; WatchHears 20000002; hears 20000003;
             PhoneOp 20000004 (Command (Disconnect 512 19 19)); WatchHears 20000005].
  - repeat split.
Qed.

(** The watch stops advertising before the request arrives and advertises again later: the phone waits and does not ask again *)
Lemma forgotten : forall aes rng, exists p p' q, reaches aes rng rng default_config default_config careful p /\ at_rest p /\
  moves aes rng rng default_config default_config p (PhoneDoes (Receive (AirLegacy q no_address PDU_IND [])) []) p' /\ q = remote /\
  conns (phone p') = [] /\ to_watch p' = [] /\ to_phone p' = [] /\ init_enabled (init (phone p')) = true /\ l_enabled (legacy (watch p')) = true.
Proof.
  intros aes rng. eexists _, _, _. split.
  - carefully [call; advertise 2; found 10000000; hears 10000001; WatchOp 10000002 (Command (SetAdvEnable false)); WatchHears 10000003; advertise 10000004; found 20000000].
  - split; [split; reflexivity|]. split.
    + eapply (next_moves aes rng rng default_config default_config _ (PhoneHears 20000001)). vm_compute. reflexivity.
    + repeat split.
Qed.

(** A request, and later moves of the phone *)
Lemma one_request_witness : forall aes rng, exists p o sent p1 p2 o2 p3 a,
  moves aes rng rng default_config default_config p (PhoneDoes o sent) p1 /\ In (AirConnect a remote 40 0 500) sent /\
  leads aes rng rng default_config default_config pending p1 p2 /\
  moves aes rng rng default_config default_config p2 (PhoneDoes (Receive o2) []) p3 /\ pending (PhoneDoes (Receive o2) []) /\
  exists adv, o2 = AirLegacy adv no_address PDU_IND [].
Proof.
  intros aes rng.
  exists (match perform aes rng rng default_config default_config start [call; advertise 2; found 10000000] with Some p => p | None => start end).
  eexists _, _, _, _, _, _, _. split.
  - eapply (next_moves aes rng rng default_config default_config _ (PhoneHears 10000001)). vm_compute. reflexivity.
  - split; [left; reflexivity|]. split.
    + eapply leads_on; [apply stays|eapply (next_moves aes rng rng default_config default_config _ (found 20000000)); vm_compute; reflexivity|exact Logic.I].
    + split; [eapply (next_moves aes rng rng default_config default_config _ (PhoneHears 20000001)); vm_compute; reflexivity|]. split; [exact Logic.I|]. eexists. reflexivity.
Qed.
