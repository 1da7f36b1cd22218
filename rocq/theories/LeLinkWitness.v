(** Concrete histories of LE connections. *)
From Verif Require Import Prelude LeLink LeLinkSpec LeLinkProofs LeLinkMore LeLinkPhy.
Open Scope N_scope.

Fixpoint play (s : system) (h : list entry) (ops : list op) : option (list entry * system) :=
  match ops with
  | [] => Some (h, s)
  | o :: ops => match step s o with Some (s', st, ev) => play s' (Entry o st ev :: h) ops | None => None end
  end.
Lemma play_history init ops : forall s h h' s', history init h s -> play s h ops = Some (h', s') -> history init h' s'.
Proof.
  induction ops as [|o ops IH]; intros s h h' s' H P; cbn [play] in P; [injection P as <- <-; exact H|].
  destruct (step s o) as [[[s1 st] ev]|] eqn:E; [|discriminate]. exact (IH _ _ _ _ (h_step _ _ _ _ _ _ _ H E) P).
Qed.
Ltac played s ops :=
  let r := eval vm_compute in (play s [] ops) in
  match r with
  | Some (?h, ?s') => exists h, s'; split; [exact (play_history s ops s [] h s' (h_start s) eq_refl)|]
  end.

Definition all (_ : maskable) : bool := true.
Definition wide : subrate := Subrate 1 500 499 0 3200.
Definition some_about : about := About 0x1f 0 12 7 15.
Definition set := Settings 7 7 7 0 0 wide some_about.
Definition start := connected set set 24 0 500.
Definition key1 : list N := repeat 1 16.
Definition key2 : list N := repeat 2 16.
Definition c_ := Host Central all.
Definition p_ := Host Peripheral all.
Definition dc := Deliver Central all.
Definition dp := Deliver Peripheral all.


(** ** Subrating *)
Lemma subrated : exists h s, history start h s /\ all_in_step h /\ up (per s) = true /\ to_per s = [] /\ factor (cp (per s)) = 4 /\ latency (cp (per s)) = 1 /\ timeout (cp (cen s)) = 450.
Proof.
  played start [c_ (SubrateRequest 2 4 1 0 450); dp].
  split; [intros e I; cbn in I; repeat (destruct I as [<-|I]; [exact Logic.I|]); contradiction|]. repeat split.
Qed.
Definition lengthened := [p_ (SubrateRequest 1 4 0 0 400); c_ (ParamReply 200 200 400 0 0 0)].
Lemma requested : exists h s, history start h s /\ up (cen s) = true /\ to_cen s = [SubrateReq 1 4 0 0 400].
Proof. played start lengthened. now split. Qed.
Lemma accepted : exists h s, history start h s /\ quiet s /\ factor (cp (per s)) = 4 /\ factor (cp (cen s)) = 4 /\ timeout (cp (per s)) = 400.
Proof. played start (lengthened ++ [dp; dc; dp]). repeat split. Qed.
Lemma compatible_refused : exists h s m s' ev fmin fmax lat cont tmo,
  history start h s /\ up (cen s) = true /\ up (per s) = true /\ to_cen s = [SubrateReq fmin fmax lat cont tmo] /\ valid_request (interval (cp (per s))) fmin fmax lat cont tmo /\
  compatible (interval (cp (cen s))) (acceptable (cen s)) fmin fmax lat tmo /\ step s (Deliver Central m) = Some (s', SUCCESS, ev) /\
  to_per s' = [SubrateInd INVALID_LMP_OR_LL_PARAMETERS 0 0 0 0].
Proof.
  enough (X : exists h s, history start h s /\ up (cen s) = true /\ up (per s) = true /\ to_cen s = [SubrateReq 1 4 0 0 400] /\ interval (cp (per s)) = 24 /\ interval (cp (cen s)) = 24 /\
     acceptable (cen s) = wide /\ exists s' ev, step s (Deliver Central all) = Some (s', SUCCESS, ev) /\ to_per s' = [SubrateInd INVALID_LMP_OR_LL_PARAMETERS 0 0 0 0]).
  { destruct X as (h & s & H & U & V & T & I & J & A & s' & ev & S & W). exists h, s, all, s', ev, 1, 4, 0, 0, 400. rewrite I, J, A.
    split; [exact H|]. split; [exact U|]. split; [exact V|]. split; [exact T|]. split; [constructor; unfold timeout_allows; lia|].
    split; [constructor; unfold timeout_allows; cbn; lia|]. now split. }
  played start [p_ (SubrateRequest 1 4 0 0 400)]. repeat (split; [reflexivity|]). eexists _, _. split; reflexivity.
Qed.
Lemma valid_refused : exists h s m smin smax lat cont tmo,
  history start h s /\ up (cen s) = true /\ valid_request (interval (cp (cen s))) smin smax lat cont tmo /\
  step s (Host Central m (SubrateRequest smin smax lat cont tmo)) = Some (s, INVALID_HCI_COMMAND_PARAMETERS, []).
Proof.
  exists [], start, all, 1, 10, 0, 0, 72. split; [constructor|]. split; [reflexivity|]. split; [constructor; unfold timeout_allows; cbn; lia|reflexivity].
Qed.
Lemma updated_apart : exists h s, history start h s /\ quiet s /\ up (cen s) = true /\ up (per s) = true /\ cp (cen s) <> cp (per s) /\
  exists m imin imax lat tmo st ev, In (Entry (Host Central m (ConnectionUpdate imin imax lat tmo)) st ev) h.
Proof.
  played start [c_ (ConnectionUpdate 40 48 0 600); dp]. repeat (split; [try (split; reflexivity); reflexivity|]). split; [discriminate|].
  exists all, 40, 48, 0, 600. eexists _, _. right. left. reflexivity.
Qed.
Lemma updated_together : exists h s, history start h s /\ all_in_step h /\ up (per s) = true /\ to_per s = [] /\ interval (cp (per s)) = 40 /\ latency (cp (per s)) = 2.
Proof.
  played start [p_ (ConnectionUpdate 40 48 2 600); dc; c_ (ParamReply 40 48 600 2 0 0); dp].
  split; [intros e I; cbn in I; repeat (destruct I as [<-|I]; [exact Logic.I|]); contradiction|]. repeat split.
Qed.

(** ** PHYs *)
Lemma two_m : exists h s, history start h s /\ (forall e, In e h -> ~ phy_of_other_link e) /\ quiet s /\ up (cen s) = true /\ up (per s) = true /\ tx_phy (cen s) = LE_2M /\ rx_phy (cen s) = LE_CODED /\
  rx_phy (per s) = LE_2M /\ tx_phy (per s) = LE_CODED.
Proof.
  played start [c_ (SetPhy false true 2 0); dp; dc; dp].
  split; [intros e I; cbn in I; repeat (destruct I as [<-|I]; [intros (? & ? & ? & ? & ? & X); discriminate X|]); contradiction|]. repeat split.
Qed.
Lemma by_peripheral : exists h s, history start h s /\ quiet s /\ tx_phy (per s) = LE_2M /\ rx_phy (cen s) = LE_2M /\ tx_phy (cen s) = LE_1M.
Proof. played start [p_ (SetPhy false false 3 1); dc; dp]. repeat split. Qed.
(** LE Set PHY on another connection while the response is awaited *)
Lemma elsewhere : exists h s, history (connected (Settings 7 1 1 0 0 wide some_about) set 24 0 500) h s /\ quiet s /\ tx_phy (cen s) = LE_CODED /\
  ~ exists phys, tx_preference (Settings 7 1 1 0 0 wide some_about) Central h phys /\ allows phys LE_CODED.
Proof.
  played (connected (Settings 7 1 1 0 0 wide some_about) set 24 0 500) [c_ (SetPhy false false 2 2); c_ (SetPhyElsewhere false false 4 4); dp; dc; dp].
  split; [split; reflexivity|]. split; [reflexivity|]. intros (phys & [->|(m & c & ev & I & A)] & B); [discriminate B|].
  cbn in I. repeat (destruct I as [I|I]; [try discriminate I; injection I as <- <- <-; cbn in A; try discriminate A; injection A as <-; discriminate B|]). contradiction.
Qed.

(** ** Encryption *)
Lemma encrypted_pair : exists h s, history start h s /\ (forall e, In e h -> same_key key1 (what e)) /\ up (cen s) = true /\ to_cen s = [] /\ encrypted (per s) = true.
Proof.
  played start [c_ (EnableEncryption key1); dp; p_ (LtkReply key1); dc].
  split; [intros e I; cbn in I; repeat (destruct I as [<-|I]; [first [exact Logic.I|reflexivity]|]); contradiction|]. repeat split.
Qed.
Lemma wrong_key : exists h s ev, history start h s /\ quiet s /\ up (cen s) = true /\ up (per s) = true /\ encrypted (cen s) = false /\ encrypted (per s) = true /\
  In (Entry (c_ (EnableEncryption key1)) SUCCESS []) h /\ In (Entry (p_ (LtkReply key2)) SUCCESS ev) h /\ In (EncryptionChangeV2 SUCCESS true) ev.
Proof.
  enough (X : exists h s, history start h s /\ quiet s /\ up (cen s) = true /\ up (per s) = true /\ encrypted (cen s) = false /\ encrypted (per s) = true /\
    In (Entry (c_ (EnableEncryption key1)) SUCCESS []) h /\ In (Entry (p_ (LtkReply key2)) SUCCESS [EncryptionChangeV2 SUCCESS true]) h).
  { destruct X as (h & s & H & A & B & C & D & E & F & G). exists h, s, [EncryptionChangeV2 SUCCESS true]. repeat (split; [assumption|]). now left. }
  played start [c_ (EnableEncryption key1); dp; p_ (LtkReply key2); dc].
  repeat (split; [try (split; reflexivity); reflexivity|]). split; [right; right; right; left; reflexivity|right; left; reflexivity].
Qed.
Lemma unasked : exists h s, history start h s /\ quiet s /\ up (cen s) = true /\ encrypted (cen s) = true /\ forall m key st ev, ~ In (Entry (Host Central m (EnableEncryption key)) st ev) h.
Proof.
  played start [p_ (LtkReply key1); dc]. repeat (split; [try (split; reflexivity); reflexivity|]).
  intros m key st ev I. cbn in I. repeat (destruct I as [I|I]; [discriminate I|]). contradiction.
Qed.

(** ** Disconnection *)
Lemma both_closed : exists h s, history start h s /\ quiet s /\ up (cen s) = false /\ up (per s) = false /\
  (forall e, In e h -> mask_of (what e) M_DISCONNECTION = true) /\ disconnections Central h = 1%nat /\ disconnections Peripheral h = 1%nat.
Proof.
  played start [c_ (Disconnect 0x13); p_ (Disconnect 0x13); dp; dc]. split; [split; reflexivity|]. split; [reflexivity|]. split; [reflexivity|].
  split; [intros e I; cbn in I; repeat (destruct I as [<-|I]; [reflexivity|]); contradiction|]. split; reflexivity.
Qed.
