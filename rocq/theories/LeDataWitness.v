(** Concrete histories of LE links with data. *)
From Verif Require Import Prelude Table LeData LeDataSpec LeDataProofs LeDataMore LeDataWatch LeDataTell LeDataPair.
From Verif Require Iso IsoSpec IsoWitness.
Open Scope N_scope.

Fixpoint play (s : state) (h : list entry) (l : list (N * env * op)) : option (list entry * state) :=
  match l with
  | [] => Some (h, s)
  | (now, e, o) :: l =>
      match step e now s o with
      | Some (s', x) => play s' (Entry now e (open_links s) o x :: h) l
      | None => None
      end
  end.
Fixpoint soundly (s : state) (l : list (N * env * op)) : Prop :=
  match l with
  | [] => True
  | (now, e, o) :: l => sound s o /\ match step e now s o with Some (s', _) => soundly s' l | None => True end
  end.
Lemma play_history : forall l s h h' s', history h s -> soundly s l -> play s h l = Some (h', s') -> history h' s'.
Proof.
  induction l as [|((now, e), o) l IH]; intros s h h' s' H S E; cbn [play soundly] in *; [now injection E as <- <-|].
  destruct S as (S1 & S2). destruct (step e now s o) as [[s1 x]|] eqn:ST; [|discriminate]. eapply IH; [|exact S2|exact E]. now apply (history_step h s e now o s1 x).
Qed.

(** * Streams: histories of the stream manager (C54 to C64) and their last states *)
Definition streams_after (ops : list Iso.op) : Iso.state :=
  match IsoWitness.play true Iso.initial [] ops with Some (_, s) => s | None => Iso.initial end.
Definition reached (i : Iso.state) : Prop := exists h, IsoSpec.history true IsoSpec.sane h i.
(** Two streams to the peer of link 1 *)
Definition two_ops : list Iso.op :=
  [IsoWitness.link; IsoWitness.group; IsoWitness.one; IsoWitness.rsp_; Iso.CreateCis [(0xe01, 1)]; IsoWitness.rsp_].
Definition two : Iso.state := streams_after two_ops.
(** The same with a path for the data received on the first *)
Definition piped_ops : list Iso.op := two_ops ++ [Iso.SetupPath 0xe00 true 0 []].
Definition piped : Iso.state := streams_after piped_ops.
(** One stream to the peer of link 1, and one with the same identifiers made by the peer of link 2 *)
Definition same_ops : list Iso.op :=
  [IsoWitness.link; IsoWitness.group; IsoWitness.one; IsoWitness.rsp_; Iso.AddLink 2 Iso.PERIPHERAL;
   Iso.Receive 0 2 (Iso.CisReq 1 1 IsoWitness.asked_params)].
Definition same : Iso.state := streams_after same_ops.

Lemma streams_reached : forall ops i, (exists h s, IsoSpec.history true IsoSpec.sane h s /\ s = i) -> i = streams_after ops -> reached (streams_after ops).
Proof. intros ops i (h & s & H & <-) <-. now exists h. Qed.
Lemma two_reached : reached two.
Proof. apply (streams_reached two_ops two); [|reflexivity]. let l := eval cbv [two_ops piped_ops same_ops app] in two_ops in IsoWitness.played true IsoSpec.sane l. vm_compute. reflexivity. Qed.
Lemma piped_reached : reached piped.
Proof. apply (streams_reached piped_ops piped); [|reflexivity]. let l := eval cbv [two_ops piped_ops same_ops app] in piped_ops in IsoWitness.played true IsoSpec.sane l. vm_compute. reflexivity. Qed.
Lemma same_reached : reached same.
Proof. apply (streams_reached same_ops same); [|reflexivity]. let l := eval cbv [two_ops piped_ops same_ops app] in same_ops in IsoWitness.played true IsoSpec.sane l. vm_compute. reflexivity. Qed.

Definition plain (i : Iso.state) : env := Env i true 1021 0 0.
Definition none : env := plain Iso.initial.

Local Ltac history_of l :=
  let r := eval vm_compute in (play initial [] l) in
  match r with Some (?h, ?s) => exists h, s; assert (HH : history h s) by (apply (play_history l initial [] h s history_start); [vm_compute; tauto|vm_compute; reflexivity]); split; [exact HH|] end.

(** * ACL *)
Definition acl_ops : list (N * env * op) :=
  [(0, none, LinkUp 1 100 200 42); (0, none, LinkUp 2 100 201 42);
   (10, none, HostAcl (AclPacket 1 0 0 [1; 2])); (11, none, HostAcl (AclPacket 2 0 0 [3])); (12, none, HostAcl (AclPacket 7 0 0 [9])); (13, none, HostAcl (AclPacket 1 1 0 [4]));
   (20, none, Tick)].
Lemma acl_case : exists h s, history h s /\ timely h /\ (exists e h', h = e :: h' /\ what e = Tick) /\
  filter acl_or_credit (said h) =
  [Sent (Frame 100 200 (Acl 0 0 [1; 2])); Completed 1; Sent (Frame 100 201 (Acl 0 0 [3])); Completed 2; Completed 7; Sent (Frame 100 200 (Acl 1 0 [4])); Completed 1].
Proof. history_of acl_ops. split; [vm_compute; repeat split; discriminate|]. split; [eexists; eexists; split; reflexivity|reflexivity]. Qed.
Lemma acl_received_case : exists h s s', history h s /\ links_between 100 201 s = [2] /\
  step none 30 s (Receive (Frame 201 100 (Acl 0 0 [5; 6]))) = Some (s', [AclToHost (AclPacket 2 2 0 [5; 6])]).
Proof.
  assert (K : exists h s, history h s /\ exists s', links_between 100 201 s = [2] /\ step none 30 s (Receive (Frame 201 100 (Acl 0 0 [5; 6]))) = Some (s', [AclToHost (AclPacket 2 2 0 [5; 6])])).
  { history_of acl_ops. eexists. split; [reflexivity|vm_compute; reflexivity]. }
  destruct K as (h & s & H & s' & A). exists h, s, s'. split; [exact H|exact A].
Qed.
(** The broadcast flag *)
Lemma acl_broadcast : forall e now s h b bc d, bc <> 0 -> step e now s (HostAcl (AclPacket h b bc d)) = None.
Proof. intros e now s h b bc d N. cbn [step]. unfold handle_acl. cbn [a_broadcast]. destruct (N.eqb_spec bc 0); [easy|reflexivity]. Qed.

(** * Isochronous data *)
Definition iso_ways (x : N) : way := Way 100 200 1 (if x =? 0xe00 then 1 else 2) 100.
Definition iso_start (i : Iso.state) : list (N * env * op) := [(0, plain i, LinkUp 1 100 200 42); (1, plain i, Tick)].
Definition host_packets (i : Iso.state) (l : list iso_packet) : list (N * env * op) := map (fun p => (5, plain i, HostIso p)) l.
Definition iso_run_ (i : Iso.state) (l : list iso_packet) : list (N * env * op) := iso_start i ++ host_packets i l ++ [(9, plain i, Tick)].

(** What the properties of the units of the host suppose *)
Definition passed (ways : N -> way) (l : list iso_packet) (x : list output) : Prop :=
  exists e es e0 h s, history (e :: es ++ e0 :: h) s /\ timely (e :: es ++ e0 :: h) /\ what e = Tick /\ what e0 = Tick /\ led ways es /\ host_iso es = l /\
    (forall e', In e' es -> reached (iso (seen e'))) /\ pdus (e0 :: h) = [] /\ pdus (e :: es ++ e0 :: h) = x.

Lemma led_packets : forall es, Forall (fun e => match what e with HostIso p => leads e (i_handle p) (iso_ways (i_handle p)) /\ (lenN (i_load p) <=? iso_length (seen e)) = true | _ => True end) es -> led iso_ways es.
Proof. intros es F e p I W. rewrite Forall_forall in F. specialize (F e I). rewrite W in F. destruct F as (A & B). apply N.leb_le in B. auto. Qed.
Lemma leads_two : forall now k p o, lookup k 1 = Some (100, 200) -> i_handle p = 0xe00 \/ i_handle p = 0xe01 -> leads (Entry now (plain two) k (HostIso p) o) (i_handle p) (iso_ways (i_handle p)).
Proof.
  intros now k p o L [E|E]; rewrite E; unfold leads; cbn [seen iso plain known]; eexists; exists 1; (split; [vm_compute; reflexivity|]); repeat split; auto.
Qed.

Definition split_at (n : nat) (h : list entry) : option (entry * list entry * entry * list entry) :=
  match h with
  | e :: r => match skipn n r with e0 :: h => Some (e, firstn n r, e0, h) | [] => None end
  | [] => None
  end.
Local Ltac passing l :=
  let r := eval vm_compute in (play initial [] (iso_run_ two l)) in
  match r with Some (?h, ?s) =>
    let n := eval vm_compute in (List.length l) in
    let v := eval vm_compute in (split_at n h) in
    match v with Some (?e, ?es, ?e0, ?h0) =>
      exists e, es, e0, h0, s; split; [apply (play_history (iso_run_ two l) initial [] _ s history_start); [vm_compute; tauto|vm_compute; reflexivity]|];
      split; [vm_compute; repeat split; discriminate|]; split; [reflexivity|]; split; [reflexivity|];
      split; [apply led_packets; repeat (apply Forall_cons; [cbn [what]; split; [apply leads_two; [reflexivity|tauto]|vm_compute; reflexivity]|]); apply Forall_nil|];
      split; [vm_compute; reflexivity|]; split; [intros e' I; repeat (destruct I as [<-|I]; [exact two_reached|]); destruct I|]; split; [vm_compute; reflexivity|vm_compute; reflexivity]
    end
  end.

Definition unit1 : unit_ := Unit 0xe00 (Some [1; 2; 3; 4]) 7 [[10; 11; 12]; [13]; [14; 15]].
Definition unit2 : unit_ := Unit 0xe01 None 300 [[20; 21]].
Lemma units_case : passed iso_ways (flat_map (packets_of true) [unit1; unit2]) [Sent (Frame 100 200 (IsoPdu 1 1 7 [10; 11; 12; 13; 14; 15])); Sent (Frame 100 200 (IsoPdu 1 2 300 [20; 21]))] /\
  well_formed unit1 /\ well_formed unit2.
Proof. split; [|repeat split; discriminate]. passing (flat_map (packets_of true) [unit1; unit2]). Qed.
Lemma whole_case : passed iso_ways (flat_map (packets_of false) [unit2; unit2]) [Sent (Frame 100 200 (IsoPdu 1 2 300 [20; 21])); Sent (Frame 100 200 (IsoPdu 1 2 300 [20; 21]))].
Proof. passing (flat_map (packets_of false) [unit2; unit2]). Qed.
(** Fragments as specified lose four bytes each *)
Definition unit3 : unit_ := Unit 0xe00 None 7 [[10; 11]; [12; 13; 14; 15; 16; 17]].
Lemma bytes_lost : well_formed unit3 /\ carried iso_ways unit3 = [Sent (Frame 100 200 (IsoPdu 1 1 7 [10; 11; 12; 13; 14; 15; 16; 17]))] /\
  passed iso_ways (packets_of false unit3) [Sent (Frame 100 200 (IsoPdu 1 1 3340 [10; 11; 16; 17]))].
Proof. split; [repeat split; discriminate|]. split; [reflexivity|]. passing (packets_of false unit3). Qed.
(** The fragments of two streams are mixed *)
Definition unit4 : unit_ := Unit 0xe00 None 1 [[10]; [11]].
Definition unit5 : unit_ := Unit 0xe01 None 2 [[20]; [21]].
Definition woven : list iso_packet := match packets_of true unit4, packets_of true unit5 with [a; b], [c; d] => [a; c; b; d] | _, _ => [] end.
Lemma streams_mixed : well_formed unit4 /\ well_formed unit5 /\
  filter (fun p => i_handle p =? 0xe00) woven = packets_of true unit4 /\ filter (fun p => i_handle p =? 0xe01) woven = packets_of true unit5 /\
  passed iso_ways woven [Sent (Frame 100 200 (IsoPdu 1 1 1 [20; 11])); Sent (Frame 100 200 (IsoPdu 1 2 2 [21]))].
Proof. repeat match goal with |- _ /\ _ => split end; try (repeat split; discriminate); try reflexivity. passing woven. Qed.
(** A short fragment, and a packet with a time stamp that is not the first *)
Lemma short_fragment : exists h s, history h s /\ reached two /\ leads (Entry 5 (plain two) (open_links s) Tick []) 0xe00 (iso_ways 0xe00) /\
  step (plain two) 5 s (HostIso (IsoPacket 0xe00 LAST false [1; 2; 3])) = None.
Proof.
  history_of (iso_start two). split; [exact two_reached|]. split; [|vm_compute; reflexivity].
  unfold leads. cbn [seen iso plain known]. eexists. exists 1. split; [vm_compute; reflexivity|]. repeat split.
Qed.
Lemma large_packet : forall e now s h b t l, iso_length e < lenN l -> step e now s (HostIso (IsoPacket h b t l)) = None.
Proof. intros e now s h b t l L. cbn [step]. unfold handle_iso. cbv zeta. cbn [i_load]. destruct (N.ltb_spec (iso_length e) (lenN l)); [reflexivity|lia]. Qed.

(** * Isochronous data received *)
Lemma iso_received_case : exists h s s', history h s /\ reached piped /\ links_between 100 200 s = [1] /\ streams_named 1 1 (iso (plain piped)) = [0xe00] /\
  step (plain piped) 5 s (Receive (Frame 200 100 (IsoPdu 1 1 7 [1; 2; 3]))) = Some (s', [IsoToHost (IsoPacket 0xe00 COMPLETE false [7; 0; 3; 0; 1; 2; 3])]).
Proof.
  assert (K : exists h s, history h s /\ exists s', reached piped /\ links_between 100 200 s = [1] /\ streams_named 1 1 (iso (plain piped)) = [0xe00] /\
    step (plain piped) 5 s (Receive (Frame 200 100 (IsoPdu 1 1 7 [1; 2; 3]))) = Some (s', [IsoToHost (IsoPacket 0xe00 COMPLETE false [7; 0; 3; 0; 1; 2; 3])])).
  { history_of (iso_start piped). eexists. split; [exact piped_reached|]. split; [reflexivity|]. split; [vm_compute; reflexivity|vm_compute; reflexivity]. }
  destruct K as (h & s & H & s' & A). exists h, s, s'. split; [exact H|exact A].
Qed.
(** A long unit is not what the host expects *)
Definition long : list N := repeat 5 4092.
Lemma long_misread : exists h s s' x, history h s /\ reached piped /\ links_between 100 200 s = [1] /\ streams_named 1 1 (iso (plain piped)) = [0xe00] /\ lenN long = 4092 /\
  step (plain piped) 5 s (Receive (Frame 200 100 (IsoPdu 1 1 7 long))) = Some (s', x) /\ x <> [] /\ host_reads (iso_out x) = None.
Proof.
  assert (K : exists h s, history h s /\ links_between 100 200 s = [1] /\ exists s' x, step (plain piped) 5 s (Receive (Frame 200 100 (IsoPdu 1 1 7 long))) = Some (s', x) /\ x <> [] /\ host_reads (iso_out x) = None).
  { history_of (iso_start piped). split; [reflexivity|]. match goal with |- exists s' x, step ?e ?n ?s ?o = _ /\ _ => assert (B : match snd (receive e n (Frame 200 100 (IsoPdu 1 1 7 long)) s) with [] => false | _ => true end = true /\ match host_reads (iso_out (snd (receive e n (Frame 200 100 (IsoPdu 1 1 7 long)) s))) with None => true | _ => false end = true) by (vm_compute; auto);
      cbn [step]; destruct (receive e n (Frame 200 100 (IsoPdu 1 1 7 long)) s) as [s' x] eqn:R end.
    exists s', x. cbn [snd] in B. destruct B as (B1 & B2). split; [reflexivity|]. clear - B1 B2. split; [intros ->; discriminate|]. destruct (host_reads (iso_out x)); [discriminate|reflexivity]. }
  destruct K as (h & s & H & L & s' & x & A & B & C). exists h, s, s', x. split; [exact H|]. split; [exact piped_reached|]. split; [exact L|]. split; [vm_compute; reflexivity|]. split; [vm_compute; reflexivity|]. split; [exact A|]. split; [exact B|exact C].
Qed.
(** The data of the peer of link 1 may be taken for that of the peer of link 2 *)
Lemma taken_for_other : exists h s, history h s /\ reached same /\ links_between 100 200 s = [1] /\
  (exists c, lookup (Iso.conns same) 0xe00 = Some c /\ Iso.c_acl c = Some 1) /\ (exists c, lookup (Iso.conns same) 0xe02 = Some c /\ Iso.c_acl c = Some 2) /\
  exists s', step (Env same true 1021 0 1) 5 s (Receive (Frame 200 100 (IsoPdu 1 1 7 [1; 2; 3]))) = Some (s', [IsoToHost (IsoPacket 0xe02 COMPLETE false [7; 0; 3; 0; 1; 2; 3])]).
Proof.
  history_of [(0, plain same, LinkUp 1 100 200 42); (0, plain same, LinkUp 2 100 201 42)]. split; [exact same_reached|]. split; [reflexivity|].
  split; [eexists; split; vm_compute; reflexivity|]. split; [eexists; split; vm_compute; reflexivity|]. eexists. vm_compute. reflexivity.
Qed.
(** No path was set up *)
Lemma no_path : exists h s, history h s /\ reached two /\ (exists c, lookup (Iso.conns two) 0xe00 = Some c /\ Iso.path_cp c = false /\ Iso.path_pc c = false) /\
  exists s', step (plain two) 5 s (Receive (Frame 200 100 (IsoPdu 1 1 7 [1; 2; 3]))) = Some (s', [IsoToHost (IsoPacket 0xe00 COMPLETE false [7; 0; 3; 0; 1; 2; 3])]).
Proof. history_of (iso_start two). split; [exact two_reached|]. split; [eexists; split; [vm_compute; reflexivity|auto]|]. eexists. vm_compute. reflexivity. Qed.

(** * Supervision *)
Definition silent (timeout : N) : list (N * env * op) :=
  [(0, none, LinkUp 1 100 200 timeout); (1500000, none, Tick); (1600000, none, Tick); (2900000, none, Tick); (3000000, none, Tick); (3000001, none, Tick)].
(** It is heard, falls silent and is dropped; both sides are told *)
Definition dropped_ops : list (N * env * op) :=
  [(0, none, LinkUp 1 100 200 42); (1000000, none, Receive (Frame 200 100 OtherPacket)); (1500000, none, Tick); (2501000, none, Tick); (2600000, none, Tick); (3999000, none, Tick); (4000000, none, Tick)].
Lemma open_case : exists h s, history h s /\ timely h /\ apart h /\ (exists e h', h = e :: h' /\ what e = Tick /\ at_time e = 4000000) /\ In (1, (100, 200)) (open_links s).
Proof.
  history_of dropped_ops. split; [vm_compute; repeat split; discriminate|]. split; [|split; [repeat eexists|left; reflexivity]].
  intros e k a b z I W. cbn [In] in I. repeat (destruct I as [<-|I]; [try discriminate; cbn [known map]; tauto|]). destruct I.
Qed.
Lemma dropped_case : exists e1 e h s s0, history (e1 :: [] ++ e :: h) s /\ timely (e1 :: [] ++ e :: h) /\ apart (e :: h) /\ what e1 = Tick /\ what e = Tick /\ history (e :: h) s0 /\
  lookup (known e) 1 = Some (100, 200) /\ lookup (open_links s0) 1 = None /\ told (seen e) = true /\
  said [e1] = [Sent (Frame 100 200 (Bye 8)); Disconnected 1 8] /\ at_time e = 4000400.
Proof.
  pose (l := dropped_ops ++ [(4000400, none, Tick)]). pose (l1 := l ++ [(4000500, none, Tick)]).
  let r := eval vm_compute in (play initial [] l) in match r with Some (?h, ?s) =>
    let r1 := eval vm_compute in (play initial [] l1) in match r1 with Some (?e1 :: _, ?s1) =>
      match h with ?e :: ?h0 => exists e1, e, h0, s1, s end end end.
  split; [apply (play_history l1 initial [] _ _ history_start); [vm_compute; tauto|vm_compute; reflexivity]|].
  split; [vm_compute; repeat split; discriminate|]. split; [|split; [reflexivity|split; [reflexivity|split; [apply (play_history l initial [] _ _ history_start); [vm_compute; tauto|vm_compute; reflexivity]|repeat split]]]].
  intros e k a b z I W. cbn [In] in I. repeat (destruct I as [<-|I]; [try discriminate; cbn [known map]; tauto|]). destruct I.
Qed.

(** The timeout agreed for the link does not matter: 32 seconds, and 100 milliseconds *)
Lemma dropped_early : exists h s, history h s /\ timely h /\ (exists e, In e h /\ what e = LinkUp 1 100 200 3200 /\ at_time e = 0) /\
  (forall e, In e h -> at_time e <= 3000001) /\ (forall e, In e h -> match what e with LinkUp _ _ _ _ | Tick => True | _ => False end) /\ open_links s = [].
Proof.
  history_of (silent 3200). split; [vm_compute; repeat split; discriminate|]. split; [eexists; split; [do 5 right; left; reflexivity|auto]|].
  split; [intros e I; cbn [In] in I; repeat (destruct I as [<-|I]; [vm_compute; discriminate|]); destruct I|]. split; [intros e I; cbn [In] in I; repeat (destruct I as [<-|I]; [exact Logic.I|]); destruct I|reflexivity].
Qed.
Lemma kept_late : exists h s, history h s /\ timely h /\ (exists e h', h = e :: h' /\ what e = Tick /\ at_time e = 2900000) /\
  (exists e, In e h /\ what e = LinkUp 1 100 200 10 /\ at_time e = 0) /\ (forall e, In e h -> ~ heard 100 200 e) /\ open_links s = [(1, (100, 200))].
Proof.
  history_of (firstn 4 (silent 10)). split; [vm_compute; repeat split; discriminate|]. split; [repeat eexists|]. split; [eexists; split; [do 3 right; left; reflexivity|auto]|].
  split; [intros e I; cbn [In] in I; repeat (destruct I as [<-|I]; [intros []|]); destruct I|reflexivity].
Qed.

(** * Two controllers, for as long as one likes *)
Lemma rounds : forall n, exists x, joint 1 100 2 200 (400000 * N.of_nat n) (400000 * N.of_nat n) (400000 * N.of_nat n) x.
Proof.
  induction n as [|n (x & IH)]; [eexists; apply (joint_start 1 100 2 200 0 none none)|]. set (t := 400000 * N.of_nat n) in *. replace (400000 * N.of_nat (S n)) with (t + 400000) by (unfold t; lia).
  destruct (tick none (t + 400000) (left x)) as [s o] eqn:E. destruct (deliver none (t + 400000) o (right x)) as [s2 o2] eqn:D.
  assert (J : joint 1 100 2 200 (t + 400000) (t + 400000) t (Net s s2 (from_left x ++ []) (at_right x ++ acl_out o2) (from_right x) (at_left x))).
  { apply (joint_left 1 100 2 200 t (t + 400000) t t x none none Tick s o s2 o2 IH); auto; try lia. cbn [step]. now rewrite E. }
  set (y := Net s s2 (from_left x ++ []) (at_right x ++ acl_out o2) (from_right x) (at_left x)) in *.
  destruct (tick none (t + 400000) (right y)) as [s' o'] eqn:E'. destruct (deliver none (t + 400000) o' (left y)) as [s2' o2'] eqn:D'.
  eexists. apply (joint_right 1 100 2 200 (t + 400000) (t + 400000) (t + 400000) t y none none Tick s' o' s2' o2' J); auto; try lia. cbn [step]. now rewrite E'.
Qed.
(** Data both ways *)
Lemma exchange : exists x, joint 1 100 2 200 30 20 30 x /\ from_left x = [AclPacket 1 0 0 [1; 2; 3]; AclPacket 1 1 0 [4]] /\ at_right x = [AclPacket 2 2 0 [1; 2; 3]; AclPacket 2 1 0 [4]] /\
  from_right x = [AclPacket 2 0 0 [9]] /\ at_left x = [AclPacket 1 2 0 [9]].
Proof.
  pose proof (joint_start 1 100 2 200 0 none none) as J.
  assert (J1 := joint_left _ _ _ _ _ 10 _ _ _ none none (HostAcl (AclPacket 1 0 0 [1; 2; 3])) _ _ _ _ J ltac:(lia) ltac:(lia) ltac:(lia) eq_refl ltac:(vm_compute; reflexivity) ltac:(vm_compute; reflexivity)). clear J.
  assert (J2 := joint_left _ _ _ _ _ 10 _ _ _ none none (HostAcl (AclPacket 1 1 0 [4])) _ _ _ _ J1 ltac:(lia) ltac:(lia) ltac:(lia) eq_refl ltac:(vm_compute; reflexivity) ltac:(vm_compute; reflexivity)). clear J1.
  assert (J3 := joint_right _ _ _ _ _ 10 _ _ _ none none (HostAcl (AclPacket 2 0 0 [9])) _ _ _ _ J2 ltac:(cbn; lia) ltac:(cbn; lia) ltac:(cbn; lia) eq_refl ltac:(vm_compute; reflexivity) ltac:(vm_compute; reflexivity)). clear J2.
  assert (J4 := joint_left _ _ _ _ _ 20 _ _ _ none none Tick _ _ _ _ J3 ltac:(cbn; lia) ltac:(cbn; lia) ltac:(cbn; lia) eq_refl ltac:(vm_compute; reflexivity) ltac:(vm_compute; reflexivity)). clear J3.
  assert (J5 := joint_right _ _ _ _ _ 30 _ _ _ none none Tick _ _ _ _ J4 ltac:(cbn; lia) ltac:(cbn; lia) ltac:(cbn; lia) eq_refl ltac:(vm_compute; reflexivity) ltac:(vm_compute; reflexivity)). clear J4.
  eexists. split; [exact J5|]. vm_compute. auto.
Qed.
