(** Concrete histories of isochronous streams. *)
From Verif Require Import Prelude Table Iso IsoSpec IsoProofs IsoMore IsoLife IsoSafe IsoParams IsoEnd.
Open Scope N_scope.

Definition on : env := Env true true true (fun x => if x <? 3 then Some true else None).

Fixpoint play (ck : bool) (s : state) (h : list moment) (ops : list op) : option (list moment * state) :=
  match ops with
  | [] => Some (h, s)
  | o :: ops => match step ck on s o with Ok s' out => play ck s' (Moment on o out :: h) ops | Panic => None end
  end.
(** The condition [P] holds all along. *)
Fixpoint along (P : state -> op -> Prop) (ck : bool) (s : state) (ops : list op) : Prop :=
  match ops with
  | [] => True
  | o :: ops => P s o /\ match step ck on s o with Ok s' _ => along P ck s' ops | Panic => False end
  end.
Lemma play_history ck P ops : forall s h h' s',
  history ck P h s -> along P ck s ops -> play ck s h ops = Some (h', s') -> history ck P h' s'.
Proof.
  induction ops as [|o ops IH]; intros s h h' s' H A E; cbn [play along] in *; [injection E as <- <-; exact H|].
  destruct A as [A1 A2]. destruct (step ck on s o) as [s1 out|] eqn:S; [|discriminate].
  exact (IH _ _ _ _ (history_step _ _ _ _ _ _ _ _ H A1 S) A2 E).
Qed.

Lemma along_step (P : state -> op -> Prop) ck s o ops s' out : step ck on s o = Ok s' out -> P s o -> along P ck s' ops -> along P ck s (o :: ops).
Proof. intros E A B. cbn [along]. rewrite E. auto. Qed.

Ltac plain :=
  repeat first
    [ exact I
    | match goal with
      | |- _ /\ _ => split
      | |- match _ with _ => _ end => hnf
      | |- Forall _ [] => constructor
      | |- Forall _ (_ :: _) => constructor
      | |- given _ _ => eexists; split; [reflexivity|]
      | |- _ < _ => vm_compute; reflexivity
      | |- _ <= _ => vm_compute; discriminate
      | |- _ <> _ => vm_compute; discriminate
      | |- _ = _ => vm_compute; reflexivity
      | |- _ = true \/ _ => first [left; vm_compute; reflexivity|right]
      | |- In _ _ => vm_compute; tauto
      end
    | progress unfold sane, orderly, fields, entry_fields, plain_entry, test_entry, carries, bursts, byte, word, latency_ok, params_ok ].
Ltac sanely := plain; try (let r := fresh in intros r; vm_compute; tauto).
Ltac played ck P ops :=
  let r := eval vm_compute in (play ck initial [] ops) in
  match r with
  | Some (?h, ?s') => exists h, s'; split; [apply (play_history ck P ops initial [] h s'); [constructor| |vm_compute; reflexivity]; repeat (lazymatch goal with |- along _ _ _ (_ :: _) => idtac end; eapply along_step; [vm_compute; reflexivity|sanely|]); try exact I|]
  end.

Definition stream2 (cp pc : N) : config := Config cp pc 1 1 None None None None None.
Definition link : op := AddLink 1 CENTRAL.
Definition group : op := SetCig 1 10000 10000 false 40 40 [Entry 1 (stream2 100 120); Entry 2 (stream2 100 120)].
Definition group' : op := SetCig 2 10000 10000 false 40 40 [Entry 1 (stream2 100 120)].
Definition one : op := CreateCis [(0xe00, 1)].
Definition rsp_ : op := Receive 0 1 CisRsp.

(** An established stream, with data paths both ways *)
Lemma establishes : exists h s, history true sane h s /\ up 0xe00 h = true /\ path 0xe00 true h = true /\ path 0xe00 false h = false /\
  lookup (streams h) 0xe00 = Some (Own 1 1) /\ frozen 1 h = true /\ unanswered 1 h = 0%nat.
Proof. played true sane [link; group; one; rsp_; SetupPath 0xe00 true 0 []]. repeat split; vm_compute; reflexivity. Qed.

Definition asked_params : params := Params 0 0 1 1 1 1 1 1 1 251 251 100 120 10000 10000 8 10000 false.
Lemma asks_peer : exists h s s' out, history true sane h s /\ sane s one /\ step true on s one = Ok s' out /\
  In (Send 1 (CisReq 1 1 asked_params)) out /\ unanswered 1 (Moment on one out :: h) = 1%nat.
Proof.
  assert (K : exists h s, history true sane h s /\ (sane s one /\ exists s' out, step true on s one = Ok s' out /\
    In (Send 1 (CisReq 1 1 asked_params)) out /\ unanswered 1 (Moment on one out :: h) = 1%nat)).
  { played true sane [link; group]. split; [sanely|]. eexists. eexists. split; [vm_compute; reflexivity|]. split; [left; reflexivity|reflexivity]. }
  destruct K as (h & s & H & Q & s' & out & K1 & K2 & K3). exists h, s, s', out. auto.
Qed.
Lemma peer_ready : exists h s, history true sane h s /\ sane s (Receive 0 1 (CisReq 1 1 asked_params)) /\ unconfirmed 1 h = 0%nat /\ h <> [].
Proof. played true sane [AddLink 1 PERIPHERAL]. split; [sanely|]. split; [reflexivity|discriminate]. Qed.

(** Commands that crash the controller, and packets that do *)
Definition crashes (ck : bool) (ops : list op) (o : op) : Prop := exists h s, history ck orderly h s /\ map what h = rev ops /\ fields o /\ step ck on s o = Panic.
Ltac crash ck ops := unfold crashes; played ck orderly ops; split; [reflexivity|]; split; [plain|vm_compute; reflexivity].
Lemma crash_intervals ck : crashes ck [] (SetCig 1 0 0 false 40 40 []).
Proof. destruct ck; [crash true (@nil op)|crash false (@nil op)]. Qed.
Lemma crash_empty_stream ck : crashes ck [link; SetCig 1 10000 10000 false 40 40 [Entry 1 (stream2 0 0)]] one.
Proof. destruct ck; [crash true [link; SetCig 1 10000 10000 false 40 40 [Entry 1 (stream2 0 0)]]|crash false [link; SetCig 1 10000 10000 false 40 40 [Entry 1 (stream2 0 0)]]]. Qed.
Lemma crash_large_stream ck : crashes ck [link; SetCig 1 10000 10000 false 40 40 [Entry 1 (stream2 4000 100)]] one.
Proof. destruct ck; [crash true [link; SetCig 1 10000 10000 false 40 40 [Entry 1 (stream2 4000 100)]]|crash false [link; SetCig 1 10000 10000 false 40 40 [Entry 1 (stream2 4000 100)]]]. Qed.
Lemma crash_overflow : crashes true [] (SetCig 1 1048573 1048574 false 40 40 [Entry 1 (stream2 100 100)]).
Proof. crash true (@nil op). Qed.
Lemma crash_other ck : crashes ck [link] (Receive 0 1 OtherLlcp).
Proof. destruct ck; [crash true [link]|crash false [link]]. Qed.
Lemma crash_error ck : crashes ck [link; group; one; rsp_] (Receive 0 1 (CisTerminate 1 1 0x2b)).
Proof. destruct ck; [crash true [link; group; one; rsp_]|crash false [link; group; one; rsp_]]. Qed.
(** Group 2 is removed while its stream waits for its turn *)
Lemma crash_removed : exists h s h' s', history true sane h s /\ map what h = [CreateCis [(0xe00, 1); (0xe02, 1)]; group'; group; link] /\
  fields (RemoveCig 2) /\ step true on s (RemoveCig 2) = Ok s' (sent h') /\ accepted h' = true /\ step true on s' rsp_ = Panic.
Proof.
  assert (K : exists h s, history true sane h s /\ (map what h = [CreateCis [(0xe00, 1); (0xe02, 1)]; group'; group; link] /\
    exists h' s', fields (RemoveCig 2) /\ step true on s (RemoveCig 2) = Ok s' (sent h') /\ accepted h' = true /\ step true on s' rsp_ = Panic)).
  { played true sane [link; group; group'; CreateCis [(0xe00, 1); (0xe02, 1)]]. split; [reflexivity|].
    exists (Moment on (RemoveCig 2) [Event (Answer OP_REMOVE_CIG SUCCESS [])]). eexists. split; [exact I|].
    split; [vm_compute; reflexivity|]. split; vm_compute; reflexivity. }
  destruct K as (h & s & H & K1 & h' & s' & K). exists h, s, h', s'. auto.
Qed.

(** The peer ends the stream: the handle given by Set CIG is gone although the group is still there *)
Lemma handle_lost : exists h s s', history true sane h s /\ group_of 1 h = Some group /\ lookup (streams h) 0xe00 = None /\
  (exists m h', h = m :: h' /\ lookup (streams h') 0xe00 = Some (Own 1 1) /\ what m = Receive 0 1 (CisTerminate 1 1 0x13)) /\
  step true on s one = Ok s' [Event (Answer OP_CREATE_CIS UNKNOWN_CONNECTION [])].
Proof.
  assert (K : exists h s, history true sane h s /\ (exists s', group_of 1 h = Some group /\ lookup (streams h) 0xe00 = None /\
  (exists m h', h = m :: h' /\ lookup (streams h') 0xe00 = Some (Own 1 1) /\ what m = Receive 0 1 (CisTerminate 1 1 0x13)) /\
  step true on s one = Ok s' [Event (Answer OP_CREATE_CIS UNKNOWN_CONNECTION [])])).
  { played true sane [link; group; one; rsp_; Receive 0 1 (CisTerminate 1 1 0x13)]. eexists.
    split; [reflexivity|]. split; [reflexivity|]. split; [eexists; eexists; repeat split; reflexivity|]. vm_compute. reflexivity. }
  destruct K as (h & s & H & s' & K). exists h, s, s'. auto.
Qed.

(** With framing the transport latency exceeds the maximum *)
Definition framed_group : op := SetCig 1 10000 10000 true 10 10 [Entry 1 (stream2 100 100)].
Lemma latency_exceeded : exists h s, history true sane h s /\ group_of 1 h = Some framed_group /\
  exists s' out p, step true on s one = Ok s' out /\ In (Send 1 (CisReq 1 1 p)) out /\ ~ interval_fits framed_group (p_iso p).
Proof.
  played true sane [link; framed_group]. split; [reflexivity|]. eexists. eexists. eexists. split; [vm_compute; reflexivity|].
  split; [left; reflexivity|]. intros [K _]. apply K; [discriminate|vm_compute; reflexivity].
Qed.

(** Disconnected twice, and without having been established *)
Lemma disconnected_twice : exists h s, history true sane h s /\ (forall st x r m, In m h -> ~ In (Event (Established st x r)) (sent m)) /\
  exists m m' h', h = m :: m' :: h' /\ sent m = [Event (Disconnected 0xe00 0x13)] /\ In (Event (Disconnected 0xe00 0x16)) (sent m').
Proof.
  played true sane [link; group; one; Disconnect 0xe00 0x13; Receive 0 1 (CisTerminate 1 1 0x13)]. split.
  - intros st x r m. cbn [In]. intros [<-|[<-|[<-|[<-|[<-|[]]]]]]; cbn; intuition discriminate.
  - eexists. eexists. eexists. split; [reflexivity|]. split; [reflexivity|]. right; right; left; reflexivity.
Qed.

(** The creation of streams is stuck *)
Definition stuck_ops : list op := [link; group; CreateCis [(0xe00, 1); (0xe01, 1)]; Disconnect 0xe00 0x13].
Lemma gets_stuck : exists h s, history true sane h s /\ stuck s /\ map what h = rev stuck_ops /\ (forall x, up x h = false).
Proof.
  played true sane [link; group; CreateCis [(0xe00, 1); (0xe01, 1)]; Disconnect 0xe00 0x13]. split; [|split; [reflexivity|intros x; cbn [up fold_left change sent]; match goal with |- (if ?b then _ else _) = _ => now destruct b end]]. split; [discriminate|].
  intros k c. cbn [conns lookup]. do 2 (match goal with |- context [?a =? k] => destruct (a =? k) end; [intros [= <-]; discriminate|]). discriminate.
Qed.

(** The answer for one stream is taken for the other *)
Lemma misassociated : exists h s, history true sane h s /\
  (exists m1 m2 h', h = m2 :: m1 :: h' /\ what m1 = one /\ accepted m1 = true /\ what m2 = CreateCis [(0xe01, 1)] /\ accepted m2 = true) /\
  (forall k, exists s' d1 d2 r, step true on s (Receive k 1 CisRsp) = Ok s' [Send 1 (CisInd d1 d2); Event (Established SUCCESS (if Nat.eqb (Nat.modulo k 2) 0 then 0xe00 else 0xe01) r)]).
Proof.
  played true sane [link; group; one; CreateCis [(0xe01, 1)]]. split.
  - eexists. eexists. eexists. repeat split; reflexivity.
  - intros k. unfold step, run, cis_rsp, find_cis.
    match goal with |- context [choose k ?l] => let v := eval vm_compute in l in change l with v end.
    unfold choose. change (length [3584; 3585]) with 2%nat. pose proof (Nat.mod_upper_bound k 2 ltac:(discriminate)) as B.
    destruct (Nat.modulo k 2) as [|[|n]]; [| |lia]; repeat eexists; vm_compute; reflexivity.
Qed.

(** Broadcast groups *)
Lemma broadcasting : exists h s, history true sane h s /\ lookup (broadcasts h) 3 = Some (0, [0xd00; 0xd01; 0xd04]) /\ lookup (broadcasts h) 1 = None /\
  lookup (broadcasts h) 2 = Some (1, [0xd02; 0xd03]).
Proof.
  played true sane [CreateBig 1 0 2 10000 100 20 1 1; CreateBig 2 1 2 10000 100 20 1 1; TerminateBig 1 0x16; CreateBig 3 0 3 10000 100 20 1 1].
  repeat split; vm_compute; reflexivity.
Qed.

Lemma broadcasting_path : exists h s, history true sane h s /\ in_broadcast 0xd00 h = true /\ bpath 0xd00 h = true /\ in_broadcast 0xd01 h = true /\ bpath 0xd01 h = false.
Proof.
  played true sane [CreateBig 1 0 2 10000 100 20 1 1; SetupPath 0xd00 false 0 []; SetupPath 0xd01 false 0 []; RemovePath 0xd01 true false].
  repeat split; vm_compute; reflexivity.
Qed.

(** A data path in a direction the stream does not have *)
Lemma useless_path : exists h s, history true sane h s /\ entry_for 1 1 h = Some (Entry 1 (stream2 100 0)) /\ lookup (streams h) 0xe00 = Some (Own 1 1) /\
  path 0xe00 false h = true /\ path 0xe00 true h = true.
Proof.
  played true sane [link; SetCig 1 10000 10000 false 40 40 [Entry 1 (stream2 100 0)]; one; rsp_; SetupPath 0xe00 true 0 []; SetupPath 0xe00 false 0 []].
  repeat split; vm_compute; reflexivity.
Qed.

(** The two hosts are told different burst numbers for the same direction *)
Definition uneven : op := SetCig 1 10000 10000 false 40 40 [Entry 1 (stream2 100 1000)].
Definition uneven_params : params := Params 0 0 1 1 4 1 4 1 1 251 251 100 1000 10000 10000 8 2500 false.
Lemma told_differently : exists h1 s1 h2 s2, history true sane h1 s1 /\ history true sane h2 s2 /\
  map what h1 = [rsp_; one; uneven; link] /\ map what h2 = [Receive 0 1 (CisInd 10000 10000); AcceptCis 0xe00; Receive 0 1 (CisReq 1 1 uneven_params); AddLink 1 PERIPHERAL] /\
  exists r1 r2 m1 m2, In m1 h1 /\ In m2 h2 /\ In (Event (Established SUCCESS 0xe00 r1)) (sent m1) /\ In (Event (Established SUCCESS 0xe00 r2)) (sent m2) /\
    In (Send 1 (CisInd 10000 10000)) (sent m1) /\ (exists m, In m h1 /\ In (Send 1 (CisReq 1 1 uneven_params)) (sent m)) /\
    e_bn_cp r1 = 1 /\ e_bn_cp r2 = 4.
Proof.
  assert (K1 : exists h1 s1, history true sane h1 s1 /\ (map what h1 = [rsp_; one; uneven; link] /\
     exists r1 m1, In m1 h1 /\ In (Event (Established SUCCESS 0xe00 r1)) (sent m1) /\ In (Send 1 (CisInd 10000 10000)) (sent m1) /\
       (exists m, In m h1 /\ In (Send 1 (CisReq 1 1 uneven_params)) (sent m)) /\ e_bn_cp r1 = 1)).
  { played true sane [link; uneven; one; rsp_]. split; [reflexivity|]. eexists. eexists. split; [left; reflexivity|].
    split; [right; left; reflexivity|]. split; [left; reflexivity|]. split; [|reflexivity].
    eexists. split; [right; left; reflexivity|]. left. reflexivity. }
  assert (K2 : exists h2 s2, history true sane h2 s2 /\ (map what h2 = [Receive 0 1 (CisInd 10000 10000); AcceptCis 0xe00; Receive 0 1 (CisReq 1 1 uneven_params); AddLink 1 PERIPHERAL] /\
     exists r2 m2, In m2 h2 /\ In (Event (Established SUCCESS 0xe00 r2)) (sent m2) /\ e_bn_cp r2 = 4)).
  { played true sane [AddLink 1 PERIPHERAL; Receive 0 1 (CisReq 1 1 uneven_params); AcceptCis 0xe00; Receive 0 1 (CisInd 10000 10000)].
    - intros x c p. cbn [conns lookup]. match goal with |- (if ?b then _ else _) = Some _ -> _ => destruct b; [|discriminate] end.
      intros [= <-] _ _ [= <-]. split; reflexivity.
    - split; [reflexivity|]. eexists. eexists. split; [left; reflexivity|]. split; [left; reflexivity|reflexivity]. }
  destruct K1 as (h1 & s1 & H1 & E1 & r1 & m1 & A1 & A2 & A3 & A4 & A5). destruct K2 as (h2 & s2 & H2 & E2 & r2 & m2 & B1 & B2 & B3).
  exists h1, s1, h2, s2. repeat (split; [assumption|]). exists r1, r2, m1, m2. auto 10.
Qed.

(** Without overflow checks the interval is computed from a wrapped product *)
Definition wrapped : op := SetCig 1 522670 164351 false 4000 4000 [Entry 1 (stream2 100 100)].
Lemma interval_wrapped : exists h s, history false orderly h s /\ group_of 1 h = Some wrapped /\
  exists s' out p, step false on s one = Ok s' out /\ In (Send 1 (CisReq 1 1 p)) out /\ ~ interval_fits wrapped (p_iso p).
Proof.
  played false orderly [link; wrapped]. split; [reflexivity|]. eexists. eexists. eexists. split; [vm_compute; reflexivity|].
  split; [left; reflexivity|]. intros [K _]. specialize (K ltac:(discriminate)). vm_compute in K. discriminate K.
Qed.

Lemma history_weaken ck (P Q : state -> op -> Prop) h s : (forall s o, P s o -> Q s o) -> history ck P h s -> history ck Q h s.
Proof. intros PQ. induction 1; econstructor; eauto. Qed.

Lemma creation_stuck : exists h s, history true sane h s /\ (forall x, up x h = false) /\ map what h = rev stuck_ops /\
  forall k s', history true orderly (k ++ h) s' -> (forall m a r, In m k -> what m <> RemoveLink a r) ->
    forall m l, In m k -> what m = CreateCis l -> accepted m = false.
Proof.
  destruct gets_stuck as (h & s & H & S & W & U). exists h, s. repeat (split; [assumption|]). intros k s' H' N.
  apply (stuck_forever true h s k s' (history_weaken _ _ _ _ _ (fun _ _ Q => proj1 Q) H) S H' N).
Qed.
