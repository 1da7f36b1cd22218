(** Runs at the end of which a BR/EDR controller does not survive. *)
From Coq Require Import Permutation.
From Verif Require Import Prelude Table Sco Bredr BredrBase BredrInv BredrConn BredrSpec BredrRefine BredrPairSpec BredrPair BredrSyncSpec BredrFailSpec BredrFail BredrWitness BredrPairWitness BredrSyncWitness.
Open Scope N_scope.

Local Notation start := (World (new_bredr me) (new_bredr you) [] []).
Local Notation whole l := (perform same_order same_order some_config your_config me you (fun _ => true) [] [] [] [] start l).
Local Notation both := (reaches same_order same_order some_config your_config me you).
Local Notation mine := (step same_order some_config).
Local Notation yours := (step same_order your_config).

(** Nobody but the two takes part: hosts give commands, the clock ticks, and each hears the other *)
Definition aloneb (peer : addr) (e : entry) : bool := match what e with Command _ | Tick => true | Receive _ p => list_eqb (source p) peer | _ => false end.
Definition alone (peer : addr) (h : list entry) : Prop := forall e, In e h -> match what e with Command _ | Tick => True | Receive _ p => source p = peer | _ => False end.
Lemma aloneb_ok : forall x h, forallb (aloneb x) h = true -> alone x h.
Proof.
  intros x h H e I. rewrite forallb_forall in H. specialize (H e I). unfold aloneb in H. destruct (what e); auto; try discriminate. now apply list_eqb_eq.
Qed.
Definition stranger (x : addr) (s : bredr) : bool := negb (existsb (list_eqb x) (peers s)).
Lemma stranger_ok : forall x s, stranger x s = true -> ~ linked x s.
Proof. intros x s H L. unfold stranger in H. apply negb_true_iff in H. rewrite <- not_true_iff_false in H. apply H, existsb_exists. exists x. split; [exact L|apply list_eqb_refl]. Qed.
Definition linkedb (x : addr) (s : bredr) : bool := existsb (list_eqb x) (peers s).
Lemma linkedb_ok : forall x s, linkedb x s = true -> linked x s.
Proof. intros x s H. apply existsb_exists in H. destruct H as (y & I & E). apply list_eqb_eq in E. now subst y. Qed.

(** The left host sets up a synchronous connection while the right host closes the link *)
Definition crossed : list deed :=
  [Do Left 1010000 (Command (SetupSync 0 some_params)); Do Left 1011000 Tick; Do Right 1010000 (Command (Disconnect 0 0x13)); Do Right 1011000 Tick].
Lemma crossing : exists hl hr w p l reason,
  both hl hr w /\ alone you hl /\ alone me hr /\ to_left w = p :: l /\ content p = Bye reason /\
  (forall now rssi, failure_of (mine now (left w) (Receive rssi p)) = Some Aborts).
Proof.
  destruct (whole (prepared ++ crossed)) as [[[hl hr] w]|] eqn:P; [|vm_compute in P; discriminate]. pose proof (perform_reaches _ _ _ _ _ _ _ _ _ _ P) as R.
  assert (X : match whole (prepared ++ crossed) with
    | Some (hl, hr, w) => forallb (aloneb you) hl && forallb (aloneb me) hr && stranger empty_address (left w) && linkedb you (left w) && negb (is_nil (calls you (left w))) && for_me (Air you me (Bye 0x13)) (left w) | None => false end = true) by (vm_compute; reflexivity).
  assert (Y : match whole (prepared ++ crossed) with Some (hl, hr, w) => to_left w | None => [] end = [Air you me (Bye 0x13)]) by (vm_compute; reflexivity).
  rewrite P in X, Y. ands X. destruct (reach_histories _ _ _ _ _ _ same_order_any same_order_any _ _ _ R) as (H1 & _).
  exists hl, hr, w, (Air you me (Bye 0x13)), [], 0x13. split; [exact R|]. split; [now apply aloneb_ok|]. split; [now apply aloneb_ok|]. split; [exact Y|]. split; [reflexivity|].
  intros now rssi. apply (fails_exactly same_order some_config same_order_any hl); [exact H1|now apply stranger_ok|].
  apply (fatal_bye _ _ _ _ rssi _ 0x13); auto; [now apply linkedb_ok|]. cbn [source]. intros E. rewrite E in *. discriminate.
Qed.

(** The right host accepts two synchronous connections, then one host closes the link *)
Definition two_calls : list deed :=
  [Do Left 1040000 (Command (SetupSync 0 some_params)); Do Left 1041000 Tick].
Lemma two_calls_close : exists hl hr w h,
  both hl hr w /\ alone you hl /\ alone me hr /\ (exists c, lookup (acls (left w)) h = Some c /\ acl_peer c = you) /\
  (forall now reason, failure_of (mine now (left w) (Command (Disconnect h reason))) = Some Aborts).
Proof.
  destruct (whole (prepared ++ dialled ++ two_calls)) as [[[hl hr] w]|] eqn:P; [|vm_compute in P; discriminate]. pose proof (perform_reaches _ _ _ _ _ _ _ _ _ _ P) as R.
  assert (X : match whole (prepared ++ dialled ++ two_calls) with
    | Some (hl, hr, w) => forallb (aloneb you) hl && forallb (aloneb me) hr && stranger empty_address (left w) && Nat.leb 2 (List.length (calls you (left w))) &&
       match lookup (acls (left w)) 0 with Some c => list_eqb (acl_peer c) you | None => false end | None => false end = true) by (vm_compute; reflexivity).
  rewrite P in X. ands X. destruct (reach_histories _ _ _ _ _ _ same_order_any same_order_any _ _ _ R) as (H1 & _).
  destruct (lookup (acls (left w)) 0) as [c|] eqn:L; [|discriminate]. match goal with E : list_eqb (acl_peer c) you = true |- _ => apply list_eqb_eq in E; rename E into PE end.
  exists hl, hr, w, 0. split; [exact R|]. split; [now apply aloneb_ok|]. split; [now apply aloneb_ok|]. split; [eauto|].
  intros now reason. apply (fails_exactly same_order some_config same_order_any hl); [exact H1|now apply stranger_ok|].
  eapply fatal_disconnect; [exact L|]. rewrite PE. now apply Nat.leb_le.
Qed.

(** The left host asks for a page of features that the right one does not have *)
Definition curious : list deed := [Do Left 1010000 (Command (ReadExtendedFeatures 0 200)); Do Left 1011000 Tick].
Lemma curiosity : exists hl hr w p l,
  both hl hr w /\ alone you hl /\ alone me hr /\ to_right w = p :: l /\
  (forall now rssi, failure_of (yours now (right w) (Receive rssi p)) = Some ReadsOutside).
Proof.
  destruct (whole (prepared ++ curious)) as [[[hl hr] w]|] eqn:P; [|vm_compute in P; discriminate]. pose proof (perform_reaches _ _ _ _ _ _ _ _ _ _ P) as R.
  assert (X : match whole (prepared ++ curious) with
    | Some (hl, hr, w) => forallb (aloneb you) hl && forallb (aloneb me) hr && stranger empty_address (right w) && for_me (Air me you (ExtendedFeaturesRequest 200)) (right w) | None => false end = true) by (vm_compute; reflexivity).
  assert (Y : match whole (prepared ++ curious) with Some (hl, hr, w) => to_right w | None => [] end = [Air me you (ExtendedFeaturesRequest 200)]) by (vm_compute; reflexivity).
  rewrite P in X, Y. ands X. destruct (reach_histories _ _ _ _ _ _ same_order_any same_order_any _ _ _ R) as (_ & H2 & _).
  exists hl, hr, w, (Air me you (ExtendedFeaturesRequest 200)), []. split; [exact R|]. split; [now apply aloneb_ok|]. split; [now apply aloneb_ok|]. split; [exact Y|].
  intros now rssi. apply (fails_exactly same_order your_config same_order_any hr); [exact H2|now apply stranger_ok|].
  apply (fatal_page _ _ _ _ rssi _ 200); auto; [discriminate|vm_compute; discriminate].
Qed.

(** Seven devices are linked, and an eighth one pages *)
Definition device (n : N) : addr := [n; 1; 1; 1; 1; 1].
Definition join (n : N) : list (N * op) := [(1000 * n, Receive 0 (Air (device n) me (Page 0 1))); (1000 * n + 100, Command (AcceptConnection (device n) false)); (1000 * n + 200, Tick)].
Definition eight : list (N * op) := (0, Command (WriteScanEnable true true)) :: flat_map join [1; 2; 3; 4; 5; 6; 7] ++ [(8000, Receive 0 (Air (device 8) me (Page 0 1)))].
Lemma eighth_link : exists h s, history same_order some_config h s /\ List.length (peers s) = 7%nat /\
  (forall now try, failure_of (mine now s (Command (AcceptConnection (device 8) try))) = Some Aborts).
Proof.
  destruct (play same_order some_config [] (new_bredr me) eight) as [[h s]|] eqn:P; [|vm_compute in P; discriminate].
  assert (X : match play same_order some_config [] (new_bredr me) eight with Some (_, s) => stranger empty_address s && stranger (device 8) s && paged_by (device 8) s && Nat.eqb (List.length (peers s)) 7 &&
    Nat.leb 7 (List.length (filter (fun x => negb (list_eqb x empty_address)) (peers s))) | None => false end = true) by (vm_compute; reflexivity).
  rewrite P in X. ands X. assert (H : history same_order some_config h s) by (eapply play_history; [apply power_on|exact P]).
  exists h, s. split; [exact H|]. split; [now apply Nat.eqb_eq|]. intros now try.
  apply (fails_exactly same_order some_config same_order_any h); [exact H|now apply stranger_ok|]. apply fatal_accept; auto; [now apply stranger_ok|]. now apply Nat.leb_le.
Qed.

(** 256 devices ask for a synchronous connection, and another one asks *)
Definition caller (n : nat) : addr := [N.of_nat n; 2; 1; 1; 1; 1].
Definition many : list (N * op) := map (fun n => (1000, Receive 0 (Air (caller n) me (ScoRequest some_params 0)))) (seq 0 256).
Lemma no_more : exists h s, history same_order some_config h s /\
  (forall now rssi q cls, failure_of (mine now s (Receive rssi (Air you me (ScoRequest q cls)))) = Some NeverReturns).
Proof.
  destruct (play same_order some_config [] (new_bredr me) many) as [[h s]|] eqn:P; [|vm_compute in P; discriminate].
  assert (X : match play same_order some_config [] (new_bredr me) many with Some (_, s) => stranger empty_address s && Nat.eqb (List.length (scos s)) 256 && match sco_of same_order you s with None => true | _ => false end && list_eqb (address s) me | None => false end = true) by (vm_compute; reflexivity).
  rewrite P in X. ands X. assert (H : history same_order some_config h s) by (eapply play_history; [apply power_on|exact P]).
  exists h, s. split; [exact H|]. intros now rssi q cls.
  apply (fails_exactly same_order some_config same_order_any h); [exact H|now apply stranger_ok|]. eapply (fatal_request _ _ _ _ rssi _ q cls); [|reflexivity| |now apply Nat.eqb_eq].
  - unfold for_me. cbn [destination]. match goal with E : list_eqb (address s) me = true |- _ => apply list_eqb_eq in E; rewrite E end. reflexivity.
  - intros (x & c & E & _). cbn [source] in E. rewrite E in *. discriminate.
Qed.

(** A synchronous connection with a stream of audio is open, and the answer comes again *)
Definition to_codec : enhanced := Enhanced (Coding 2 0 0) (Coding 2 0 0) (Coding 4 0 0) (Coding 4 0 0) 16000 16000 1 1.
Definition streamed : list (N * op) :=
  [(0, Command (CreateConnection you 1)); (1000000, Tick); (1001000, Tick); (1200000, from_you (PageResponse false)); (1300000, Tick);
   (1400000, Command (EnhancedSetup 0 some_params to_codec)); (1500000, Tick); (1600000, from_you (ScoResponse SUCCESS some_link)); (1700000, Tick)].
Definition streams_tob (x : addr) (s : bredr) : bool := match sco_of same_order x s with Some (_, c) => match sco_stream c with Some _ => true | None => false end | None => false end.
Lemma streams_tob_ok : forall x s, streams_tob x s = true -> streams_to same_order x s.
Proof. intros x s H. unfold streams_tob in H. destruct (sco_of same_order x s) as [[h c]|] eqn:E; [|discriminate]. destruct (sco_stream c) as [i|] eqn:S; [|discriminate]. exists h, c, i. auto. Qed.
Lemma answered_again : exists h s, history same_order some_config h s /\
  (exists e, In e h /\ what e = from_you (ScoResponse SUCCESS some_link)) /\
  (forall now st l, failure_of (mine now s (from_you (ScoResponse st l))) = Some Aborts).
Proof.
  destruct (play same_order some_config [] (new_bredr me) streamed) as [[h s]|] eqn:P; [|vm_compute in P; discriminate].
  assert (X : match play same_order some_config [] (new_bredr me) streamed with Some (_, s) => stranger empty_address s && streams_tob you s && list_eqb (address s) me | None => false end = true) by (vm_compute; reflexivity).
  assert (Y : match play same_order some_config [] (new_bredr me) streamed with Some (_ :: e :: _, _) => what e | _ => Tick end = from_you (ScoResponse SUCCESS some_link)) by (vm_compute; reflexivity).
  rewrite P in X, Y. ands X. assert (H : history same_order some_config h s) by (eapply play_history; [apply power_on|exact P]).
  exists h, s. split; [exact H|]. split. { destruct h as [|e0 [|e h]]; try discriminate. exists e. split; [right; left; reflexivity|exact Y]. }
  intros now st l. apply (fails_exactly same_order some_config same_order_any h); [exact H|now apply stranger_ok|].
  eapply fatal_answer; [|reflexivity|now apply streams_tob_ok]. unfold for_me. cbn [destination]. match goal with E : list_eqb (address s) me = true |- _ => apply list_eqb_eq in E; rewrite E end. reflexivity.
Qed.

(** Data for several devices *)
Lemma broadcast_aborts : exists h s, history same_order some_config h s /\ peers s = [] /\ failure_of (mine 0 s (AclFromHost 0 0 1 [1; 2])) = Some Aborts.
Proof. exists [], (new_bredr me). split; [constructor|]. split; reflexivity. Qed.

(** Both are linked and speak, and nothing dangerous is possible *)
Lemma calm_witness : exists hl hr w, both hl hr w /\ linked you (left w) /\ linked me (right w) /\ ~ linked empty_address (left w) /\ scos (left w) = [] /\ (List.length (peers (left w)) < 7)%nat.
Proof.
  destruct (whole prepared) as [[[hl hr] w]|] eqn:P; [|vm_compute in P; discriminate]. pose proof (perform_reaches _ _ _ _ _ _ _ _ _ _ P) as R.
  assert (X : match whole prepared with
    | Some (hl, hr, w) => stranger empty_address (left w) && linkedb you (left w) && linkedb me (right w) && is_nil (scos (left w)) && Nat.ltb (List.length (peers (left w))) 7 | None => false end = true) by (vm_compute; reflexivity).
  rewrite P in X. ands X. exists hl, hr, w. split; [exact R|]. split; [now apply linkedb_ok|]. split; [now apply linkedb_ok|]. split; [now apply stranger_ok|]. split; [now apply is_nil_ok|now apply Nat.ltb_lt].
Qed.
