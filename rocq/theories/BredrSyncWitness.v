(** Runs of two controllers that set up synchronous connections. *)
From Coq Require Import Permutation.
From Verif Require Import Prelude Table Sco Bredr BredrBase BredrInv BredrSpec BredrFlow BredrPairSpec BredrPair BredrSyncSpec BredrWitness BredrPairWitness.
Open Scope N_scope.

Local Notation start := (World (new_bredr me) (new_bredr you) [] []).
Local Notation go keep := (perform same_order same_order some_config your_config me you keep).

(** Hosts that are polite *)
Definition callingb (x : addr) (s : bredr) : bool := existsb (fun e => match sco_now (snd e) with PENDING => true | _ => false end) (calls x s).
Lemma callingb_ok : forall x s, callingb x s = false -> ~ calling x s.
Proof.
  intros x s H (h & c & I & P). unfold callingb in H. assert (X : existsb (fun e => match sco_now (snd e) with PENDING => true | _ => false end) (calls x s) = true); [|congruence].
  apply existsb_exists. exists (h, c). split; auto. cbn. now rewrite P.
Qed.
Definition politeb (x : addr) (s : bredr) (o : op) : bool :=
  match o with
  | Command (AcceptConnection _ _) | Command (AcceptSync _ _) | Command (EnhancedAccept _ _ _) => negb (callingb x s)
  | Command (RejectSync _ r) => (r <? 256) && negb (callingb x s)
  | _ => true
  end.
Lemma politeb_ok : forall x s o, politeb x s o = true -> polite x s o.
Proof.
  intros x s o H. destruct o as [c| | | |]; try exact Logic.I. destruct c; try exact Logic.I; cbn in *.
  - intros _. apply callingb_ok. now apply negb_true_iff.
  - intros _. apply callingb_ok. now apply negb_true_iff.
  - apply andb_true_iff in H. destruct H as (A & B). split; [now apply N.ltb_lt|]. intros _. apply callingb_ok. now apply negb_true_iff.
  - intros _. apply callingb_ok. now apply negb_true_iff.
Qed.
Definition is_nil {T : Type} (l : list T) : bool := match l with [] => true | _ => false end.
Lemma is_nil_ok : forall (T : Type) (l : list T), is_nil l = true -> l = [].
Proof. now intros T []. Qed.
Definition end_steadyb (x : addr) (h : N) (s : bredr) : bool :=
  match acl_of x s with Some (h', _) => h' =? h | None => false end && (Nat.leb (List.length (calls x s)) 1) && unmasked s 0x03 &&
  match acl_of empty_address s with None => true | _ => false end && is_nil (calls empty_address s).
Lemma end_steadyb_ok : forall x h s, end_steadyb x h s = true -> end_steady x h s.
Proof.
  intros x h s H. unfold end_steadyb in H. repeat (apply andb_true_iff in H; destruct H as (H & ?)). split; [|split; [|split; [|split]]].
  - destruct (acl_of x s) as [[h' c]|]; [|discriminate]. apply N.eqb_eq in H. subst h'. eauto.
  - now apply Nat.leb_le.
  - assumption.
  - now destruct (acl_of empty_address s).
  - now apply is_nil_ok.
Qed.
Definition sync_steadyb (a b : addr) (k k' : N) (w : world) : bool :=
  end_steadyb b k (left w) && end_steadyb a k' (right w) && forallb (fun p => negb (hangs_up p)) (way_right b w) && forallb (fun p => negb (hangs_up p)) (way_left a w).
Lemma sync_steadyb_ok : forall a b k k' w, sync_steadyb a b k k' w = true -> sync_steady a b k k' w.
Proof.
  intros a b k k' w H. unfold sync_steadyb in H. do 3 (apply andb_true_iff in H; destruct H as (H & ?)). rewrite forallb_forall in *.
  split; [now apply end_steadyb_ok|]. split; [now apply end_steadyb_ok|]. split; intros p I; apply negb_true_iff; auto.
Qed.
Definition sync_quietb (a b : addr) (w : world) : bool := forallb (fun p => negb (dials p)) (way_right b w) && forallb (fun p => negb (dials p)) (way_left a w).
Lemma sync_quietb_ok : forall a b w, sync_quietb a b w = true -> sync_quiet a b w.
Proof. intros a b w H. apply andb_true_iff in H. destruct H as (A & B). rewrite forallb_forall in *. split; intros p I; apply negb_true_iff; auto. Qed.

Section Dial.
Variables (order1 order2 : table sco_link -> table sco_link) (cfg1 cfg2 : config) (a b : addr) (k k' : N).
Fixpoint dial (hl hr nl nr : list entry) (w : world) (l : list deed) : option (list entry * list entry * world) :=
  match l with
  | [] => Some (nl, nr, w)
  | x :: l =>
      match next order1 order2 cfg1 cfg2 a b w x with
      | Some (Left, e, w') => if politeb b (left w) (what e) && (sync_steadyb a b k k' w' && later (at_time e) (nl ++ hl)) then dial hl hr (e :: nl) nr w' l else None
      | Some (Right, e, w') => if politeb a (right w) (what e) && (sync_steadyb a b k k' w' && later (at_time e) (nr ++ hr)) then dial hl hr nl (e :: nr) w' l else None
      | None => None
      end
  end.
Lemma dialling_timely : forall hl hr w0 nl nr w, dialling order1 order2 cfg1 cfg2 a b k k' hl hr w0 nl nr w -> timely (nl ++ hl) /\ timely (nr ++ hr).
Proof. intros hl hr w0 nl nr w M. induction M as [R H|nl nr w e w' M (A & B) PO MV T KW|nl nr w e w' M (A & B) PO MV T KW]; auto. eapply reaches_timely; eauto. Qed.
Theorem dial_dialling : forall l hl hr w0 nl nr w nl' nr' w', dialling order1 order2 cfg1 cfg2 a b k k' hl hr w0 nl nr w ->
  dial hl hr nl nr w l = Some (nl', nr', w') -> dialling order1 order2 cfg1 cfg2 a b k k' hl hr w0 nl' nr' w'.
Proof.
  induction l as [|x l IH]; intros hl hr w0 nl nr w nl' nr' w' M P; cbn [dial] in P; [injection P as <- <- <-; exact M|].
  destruct (next order1 order2 cfg1 cfg2 a b w x) as [[[d e] w1]|] eqn:E; [|discriminate]. apply next_moves in E. destruct (dialling_timely _ _ _ _ _ _ M) as (T1 & T2).
  destruct d.
  - destruct (politeb b (left w) (what e)) eqn:PO; [|discriminate]. destruct (sync_steadyb a b k k' w1) eqn:KW; [|discriminate]. destruct (later (at_time e) (nl ++ hl)) eqn:LT; [|discriminate]. cbn [andb] in P.
    eapply IH; [|exact P]. eapply left_dials; eauto; [now apply politeb_ok|now apply later_timely|now apply sync_steadyb_ok].
  - destruct (politeb a (right w) (what e)) eqn:PO; [|discriminate]. destruct (sync_steadyb a b k k' w1) eqn:KW; [|discriminate]. destruct (later (at_time e) (nr ++ hr)) eqn:LT; [|discriminate]. cbn [andb] in P.
    eapply IH; [|exact P]. eapply right_dials; eauto; [now apply politeb_ok|now apply later_timely|now apply sync_steadyb_ok].
Qed.
End Dial.

Definition some_params : params := Params 8000 8000 0xffff 0x60 0xff 0x3f.
Definition other_params : params := Params 8000 8000 0xffff 0x60 0xff 0x3c8.
Definition prepared : list deed := connected ++ [Do Left 1006000 (Command (SetEventMask 0xffffffffffffffff)); Do Right 1006000 (Command (SetEventMask 0xffffffffffffffff))].
(** Both set up a connection at the same time, and both are refused; then the right one
    refuses, and at last it accepts *)
Definition dialled : list deed :=
  [Do Left 1010000 (Command (SetupSync 0 some_params)); Do Left 1011000 Tick; Do Right 1010000 (Command (SetupSync 0 some_params)); Do Right 1011000 Tick;
   Hear Left 1012000 0; Hear Right 1012000 0; Do Left 1013000 Tick; Do Right 1013000 Tick; Hear Left 1014000 0; Hear Right 1014000 0;
   Do Left 1020000 (Command (SetupSync 0 some_params)); Do Left 1021000 Tick; Hear Right 1022000 0; Do Right 1023000 (Command (RejectSync me 0x0d)); Do Right 1024000 Tick; Hear Left 1025000 0;
   Do Left 1030000 (Command (SetupSync 0 some_params)); Do Left 1031000 Tick; Hear Right 1032000 0; Do Right 1033000 (Command (AcceptSync me other_params)); Do Right 1034000 Tick; Hear Left 1035000 0].
Local Notation whole l := (go (fun _ => true) [] [] [] [] start l).
Local Notation call := (dial same_order same_order some_config your_config me you 0 0).
Definition some_link : link := Link 6 0 30 30 2 true.
Definition link_eqb (l l' : link) : bool :=
  (transmission_interval l =? transmission_interval l') && (retransmission_window l =? retransmission_window l') && (rx_packet_length l =? rx_packet_length l') &&
  (tx_packet_length l =? tx_packet_length l') && (air_mode l =? air_mode l') && Bool.eqb (extended l) (extended l').
Lemma link_eqb_eq : forall l l', link_eqb l l' = true -> l = l'.
Proof. intros [] [] H. unfold link_eqb in H. cbn in H. repeat (apply andb_true_iff in H; destruct H as (H & ?)). repeat match goal with E : _ = true |- _ => first [apply N.eqb_eq in E|apply eqb_prop in E] end. congruence. Qed.
Definition in_callb (x : addr) (l : link) (s : bredr) : bool := existsb (fun e => match sco_now (snd e) with OPENED => link_eqb (sco_negotiated (snd e)) l | _ => false end) (calls x s).
Lemma in_callb_ok : forall x l s, in_callb x l s = true -> in_call x l s.
Proof. intros x l s H. unfold in_callb in H. apply existsb_exists in H. destruct H as ([h c] & I & E). cbn in E. exists h, c. destruct (sco_now c); try discriminate. apply link_eqb_eq in E. auto. Qed.
Definition calledb (x : addr) (s : bredr) : bool := existsb (fun e => match sco_now (snd e) with SENT_ESCO_CONNECTION_REQUEST | SENT_SCO_CONNECTION_REQUEST => true | _ => false end) (calls x s).
Lemma calledb_ok : forall x s, calledb x s = true <-> called x s.
Proof.
  intros x s. unfold calledb, called. rewrite existsb_exists. split.
  - intros ([h c] & I & E). cbn in E. exists h, c. split; auto. destruct (sco_now c); auto; discriminate.
  - intros (h & c & I & E). exists (h, c). split; auto. cbn. now destruct E as [-> | ->].
Qed.
Lemma not_called : forall x s, calledb x s = false -> ~ called x s.
Proof. intros x s H C. apply calledb_ok in C. congruence. Qed.
Definition hung_up_bothb (a b : addr) (w : world) : bool := is_nil (calls b (left w)) && is_nil (calls a (right w)) && sync_quietb a b w.
Lemma hung_up_bothb_ok : forall a b w, hung_up_bothb a b w = true -> hung_up_both a b w.
Proof. intros a b w H. unfold hung_up_bothb in H. apply andb_true_iff in H. destruct H as (H & C). apply andb_true_iff in H. destruct H as (A & B). split; [now apply is_nil_ok|]. split; [now apply is_nil_ok|now apply sync_quietb_ok]. Qed.
Ltac ands H := repeat match type of H with (_ && _)%bool = true => apply andb_true_iff in H; let X := fresh "X" in destruct H as (H & X) end.

Lemma calls_witness : exists hl hr w0 nl nr w,
  dialling same_order same_order some_config your_config me you 0 0 hl hr w0 nl nr w /\ hung_up_both me you w0 /\ calls_to_tell you (left w0) = [] /\
  sync_quiet me you w /\ ~ called you (left w) /\ ~ called me (right w) /\ in_call you some_link (left w) /\ in_call me some_link (right w) /\
  calls_told you nl = [SYNCHRONOUS_LIMIT; 0x0d; SUCCESS] /\ call_commands 0 nl = 3%nat /\ calls_told me nr = [SYNCHRONOUS_LIMIT; 0x0d; SUCCESS] /\ call_commands 0 nr = 1%nat /\ call_requests me nr = 2%nat.
Proof.
  destruct (whole prepared) as [[[hl hr] w0]|] eqn:P; [|vm_compute in P; discriminate]. pose proof (perform_reaches _ _ _ _ _ _ _ _ _ _ P) as R.
  assert (X : match whole prepared with
    | Some (hl, hr, w0) => sync_steadyb me you 0 0 w0 && hung_up_bothb me you w0 && is_nil (calls_to_tell you (left w0)) &&
        match call hl hr [] [] w0 dialled with Some (nl, nr, w) =>
          sync_quietb me you w && negb (calledb you (left w)) && negb (calledb me (right w)) && in_callb you some_link (left w) && in_callb me some_link (right w) | None => false end
    | None => false end = true) by (vm_compute; reflexivity).
  assert (Y : match whole prepared with
    | Some (hl, hr, w0) => match call hl hr [] [] w0 dialled with Some (nl, nr, w) => (calls_told you nl, call_commands 0 nl, (calls_told me nr, call_commands 0 nr, call_requests me nr)) | None => ([], 0%nat, ([], 0%nat, 0%nat)) end
    | None => ([], 0%nat, ([], 0%nat, 0%nat)) end = ([SYNCHRONOUS_LIMIT; 0x0d; SUCCESS], 3%nat, ([SYNCHRONOUS_LIMIT; 0x0d; SUCCESS], 1%nat, 2%nat))) by (vm_compute; reflexivity).
  rewrite P in X, Y. ands X. destruct (call hl hr [] [] w0 dialled) as [[[nl nr] w]|] eqn:Q; [|discriminate]. ands X0. injection Y as Y1 Y2 Y3 Y4 Y5.
  exists hl, hr, w0, nl, nr, w. split. { eapply dial_dialling; [|exact Q]. apply hung_up; [exact R|now apply sync_steadyb_ok]. }
  split; [now apply hung_up_bothb_ok|]. split; [now apply is_nil_ok|]. split; [now apply sync_quietb_ok|]. split; [now apply not_called, negb_true_iff|]. split; [now apply not_called, negb_true_iff|].
  split; [now apply in_callb_ok|]. split; [now apply in_callb_ok|]. auto.
Qed.

(** ** Voice *)
Definition is_stream (t : task) : bool := match what_to_do t with Stream _ => true | _ => false end.
Definition call_steadyb (a b : addr) (h h' : N) (w : world) : bool :=
  match calls b (left w) with [(x, _)] => x =? h | _ => false end && match calls a (right w) with [(x, _)] => x =? h' | _ => false end && is_nil (calls empty_address (left w)) && forallb (fun t => negb (is_stream t)) (queue (left w)).
Lemma call_steadyb_ok : forall a b h h' w, call_steadyb a b h h' w = true -> call_steady a b h h' w.
Proof.
  intros a b h h' w H. unfold call_steadyb in H. ands H. split; [|split; [|split]].
  - destruct (calls b (left w)) as [|[x c] [|]]; try discriminate. apply N.eqb_eq in H. subst x. eauto.
  - destruct (calls a (right w)) as [|[x c] [|]]; try discriminate. apply N.eqb_eq in X1. subst x. eauto.
  - now apply is_nil_ok.
  - intros t n I E. rewrite forallb_forall in X. specialize (X t I). unfold is_stream in X. now rewrite E in X.
Qed.
Definition spoken : list deed :=
  [Do Left 1040000 (ScoFromHost 258 [1; 2; 3]); Do Left 1041000 Tick; Do Left 1042000 (ScoFromHost 258 [4; 5]); Do Left 1043000 (ScoFromHost 7 [6]); Do Left 1044000 Tick; Hear Right 1045000 0; Do Left 1046000 (ScoFromHost 258 [7])].
Lemma voice_witness : exists hl hr w0 nl nr w, meanwhile same_order same_order some_config your_config me you (call_steady me you 258 258) hl hr w0 nl nr w /\
  (forall p, In p (way_right you w0) -> voice_of p = []) /\ voice_heard 258 nr = [[1; 2; 3]] /\ flat_map voice_of (way_right you w) = [[4; 5]; [7]] /\ voice_sent 258 nl = [[1; 2; 3]; [4; 5]; [7]].
Proof.
  destruct (whole (prepared ++ dialled)) as [[[hl hr] w0]|] eqn:P; [|vm_compute in P; discriminate]. pose proof (perform_reaches _ _ _ _ _ _ _ _ _ _ P) as R.
  assert (X : match whole (prepared ++ dialled) with
    | Some (hl, hr, w0) => call_steadyb me you 258 258 w0 && forallb (fun p => is_nil (voice_of p)) (way_right you w0) && match go (call_steadyb me you 258 258) hl hr [] [] w0 spoken with Some _ => true | None => false end
    | None => false end = true) by (vm_compute; reflexivity).
  assert (Y : match whole (prepared ++ dialled) with
    | Some (hl, hr, w0) => match go (call_steadyb me you 258 258) hl hr [] [] w0 spoken with Some (nl, nr, w) => (voice_heard 258 nr, flat_map voice_of (way_right you w), voice_sent 258 nl) | None => ([], [], []) end
    | None => ([], [], []) end = ([[1; 2; 3]], [[4; 5]; [7]], [[1; 2; 3]; [4; 5]; [7]])) by (vm_compute; reflexivity).
  rewrite P in X, Y. ands X. destruct (go (call_steadyb me you 258 258) hl hr [] [] w0 spoken) as [[[nl nr] w]|] eqn:Q; [|discriminate]. injection Y as Y1 Y2 Y3.
  exists hl, hr, w0, nl, nr, w. split. { eapply perform_meanwhile; [|apply at_first; [exact R|]|exact Q]; [apply call_steadyb_ok|now apply call_steadyb_ok]. }
  split; [|auto]. intros p I. rewrite forallb_forall in X1. now apply is_nil_ok, X1.
Qed.

(** ** What goes wrong *)
(** Both hosts close the connection at the same time, and one sets up another one at once.
    The close of the old connection closes the new one at one end only *)
Definition hung_up_twice : list deed :=
  [Do Left 1040000 (Command (Disconnect 258 0x13)); Do Left 1041000 Tick; Do Right 1040000 (Command (Disconnect 258 0x13)); Do Right 1041000 Tick;
   Do Left 1042000 (Command (SetupSync 0 some_params)); Do Left 1043000 Tick; Hear Left 1044000 0; Do Left 1045000 Tick;
   Hear Right 1044000 0; Hear Right 1045000 0; Do Right 1046000 (Command (AcceptSync me other_params)); Do Right 1047000 Tick; Hear Left 1048000 0; Do Left 1049000 Tick].
Lemma half_open : exists hl hr w, reaches same_order same_order some_config your_config me you hl hr w /\ sync_steady me you 0 0 w /\ sync_quiet me you w /\
  ~ called you (left w) /\ ~ called me (right w) /\ calls you (left w) = [] /\ in_call me some_link (right w) /\
  call_commands 0 hl = 4%nat /\ List.length (calls_told you hl) = 3%nat /\ calls_to_tell you (left w) = [].
Proof.
  destruct (whole (prepared ++ dialled ++ hung_up_twice)) as [[[hl hr] w]|] eqn:P; [|vm_compute in P; discriminate]. pose proof (perform_reaches _ _ _ _ _ _ _ _ _ _ P) as R.
  assert (X : match whole (prepared ++ dialled ++ hung_up_twice) with
    | Some (hl, hr, w) => sync_steadyb me you 0 0 w && sync_quietb me you w && negb (calledb you (left w)) && negb (calledb me (right w)) && is_nil (calls you (left w)) && in_callb me some_link (right w) &&
        Nat.eqb (call_commands 0 hl) 4 && Nat.eqb (List.length (calls_told you hl)) 3 && is_nil (calls_to_tell you (left w))
    | None => false end = true) by (vm_compute; reflexivity).
  rewrite P in X. ands X. exists hl, hr, w. split; [exact R|]. split; [now apply sync_steadyb_ok|]. split; [now apply sync_quietb_ok|]. split; [now apply not_called, negb_true_iff|]. split; [now apply not_called, negb_true_iff|].
  split; [now apply is_nil_ok|]. split; [now apply in_callb_ok|]. split; [now apply Nat.eqb_eq|]. split; [now apply Nat.eqb_eq|now apply is_nil_ok].
Qed.
(** A host that accepts its own request: then the connection is open at the other end, whose
    host gave no command at all *)
Definition impolite : list deed :=
  [Do Left 1040000 (Command (SetupSync 0 some_params)); Do Left 1040500 (Command (AcceptSync you other_params)); Do Left 1041000 Tick; Hear Right 1042000 0; Hear Right 1042000 0; Do Right 1043000 Tick; Do Left 1043000 Tick].
Definition is_command (e : entry) : bool := match what e with Command _ => true | _ => false end.
Lemma not_asked : exists hl hr w0 nl nr w, meanwhile same_order same_order some_config your_config me you (sync_steady me you 0 0) hl hr w0 nl nr w /\ hung_up_both me you w0 /\
  (forall e, In e nr -> is_command e = false) /\ in_call me some_link (right w) /\ calls_told me nr = [SUCCESS].
Proof.
  destruct (whole prepared) as [[[hl hr] w0]|] eqn:P; [|vm_compute in P; discriminate]. pose proof (perform_reaches _ _ _ _ _ _ _ _ _ _ P) as R.
  assert (X : match whole prepared with
    | Some (hl, hr, w0) => sync_steadyb me you 0 0 w0 && hung_up_bothb me you w0 && match go (sync_steadyb me you 0 0) hl hr [] [] w0 impolite with Some (nl, nr, w) => forallb (fun e => negb (is_command e)) nr && in_callb me some_link (right w) && list_eqb (calls_told me nr) [SUCCESS] | None => false end
    | None => false end = true) by (vm_compute; reflexivity).
  rewrite P in X. ands X. destruct (go (sync_steadyb me you 0 0) hl hr [] [] w0 impolite) as [[[nl nr] w]|] eqn:Q; [|discriminate]. ands X0.
  exists hl, hr, w0, nl, nr, w. split. { eapply perform_meanwhile; [|apply at_first; [exact R|]|exact Q]; [apply sync_steadyb_ok|now apply sync_steadyb_ok]. }
  split; [now apply hung_up_bothb_ok|]. split; [|split; [now apply in_callb_ok|now apply list_eqb_eq]]. intros e I. rewrite forallb_forall in X0. now apply negb_true_iff, X0.
Qed.
(** The link is closed while a connection is being set up: the host is told of the end of a
    connection that it was never told of, and not of the outcome of its command *)
Definition cut_off : list deed :=
  [Do Left 1040000 (Command (SetupSync 0 some_params)); Do Left 1040500 (Command (Disconnect 0 0x13)); Do Left 1041000 Tick; Do Left 1042000 Tick].
Lemma no_outcome : exists hl hr w0 nl nr w, meanwhile same_order same_order some_config your_config me you (fun _ => True) hl hr w0 nl nr w /\ hung_up_both me you w0 /\ calls_to_tell you (left w0) = [] /\
  call_commands 0 nl = 1%nat /\ calls_told you nl = [] /\ calls_to_tell you (left w) = [] /\ calls you (left w) = [].
Proof.
  destruct (whole prepared) as [[[hl hr] w0]|] eqn:P; [|vm_compute in P; discriminate]. pose proof (perform_reaches _ _ _ _ _ _ _ _ _ _ P) as R.
  assert (X : match whole prepared with
    | Some (hl, hr, w0) => hung_up_bothb me you w0 && is_nil (calls_to_tell you (left w0)) && match go (fun _ => true) hl hr [] [] w0 cut_off with Some (nl, nr, w) => Nat.eqb (call_commands 0 nl) 1 && is_nil (calls_told you nl) && is_nil (calls_to_tell you (left w)) && is_nil (calls you (left w)) | None => false end
    | None => false end = true) by (vm_compute; reflexivity).
  rewrite P in X. ands X. destruct (go (fun _ => true) hl hr [] [] w0 cut_off) as [[[nl nr] w]|] eqn:Q; [|discriminate]. ands X0.
  exists hl, hr, w0, nl, nr, w. split. { eapply perform_meanwhile; [|apply at_first; [exact R|exact Logic.I]|exact Q]. auto. }
  split; [now apply hung_up_bothb_ok|]. split; [now apply is_nil_ok|]. split; [now apply Nat.eqb_eq|]. repeat split; now apply is_nil_ok.
Qed.
(** A second connection while one is open: the host is asked and its answer is refused *)
Definition called_twice : list deed :=
  [Do Left 1040000 (Command (SetupSync 0 some_params)); Do Left 1041000 Tick; Hear Right 1042000 0; Do Right 1043000 (Command (AcceptSync me other_params))].
Lemma answer_refused : exists hl hr w e, reaches same_order same_order some_config your_config me you hl (e :: hr) w /\ what e = Command (AcceptSync me other_params) /\
  called me (right w) /\ status_of e = Some DISALLOWED /\ flat_map (fun x => sent x) (firstn 1 hr) = [Event (ConnectionRequest me 0 LINK_ESCO)].
Proof.
  destruct (whole (prepared ++ dialled ++ called_twice)) as [[[hl hr] w]|] eqn:P; [|vm_compute in P; discriminate]. pose proof (perform_reaches _ _ _ _ _ _ _ _ _ _ P) as R.
  assert (X : match whole (prepared ++ dialled ++ called_twice) with
    | Some (hl, hr, w) => calledb me (right w) | None => false end = true) by (vm_compute; reflexivity).
  assert (Y : match whole (prepared ++ dialled ++ called_twice) with
    | Some (hl, e :: hr, w) => Some (what e, status_of e, flat_map (fun x => sent x) (firstn 1 hr)) | _ => None end = Some (Command (AcceptSync me other_params), Some DISALLOWED, [Event (ConnectionRequest me 0 LINK_ESCO)])) by (vm_compute; reflexivity).
  rewrite P in X, Y. destruct hr as [|e hr]; [discriminate|]. injection Y as Y1 Y2 Y3. exists hl, hr, w, e. split; [exact R|]. split; [exact Y1|]. split; [now apply calledb_ok|]. auto.
Qed.
