(** Runs of two controllers, one of which asks about the other. *)
From Coq Require Import Permutation.
From Verif Require Import Prelude Table Sco Bredr BredrBase BredrInv BredrSpec BredrFlow BredrPairSpec BredrPair BredrRemoteSpec BredrWitness BredrPairWitness.
Open Scope N_scope.

Definition readyb (b : addr) (k : N) (nm : list N) (hf : N) (w : world) : bool :=
  match acl_of b (left w) with Some (x, _) => x =? k | None => false end &&
  forallb (unmasked (left w)) [0x07; 0x0b; 0x0c; 0x1c; 0x23; 0x3d] && list_eqb (name (right w)) nm && (host_features (right w) =? hf).
Lemma readyb_ok : forall b k nm hf w, readyb b k nm hf w = true -> ready b k nm hf w.
Proof.
  intros b k nm hf w H. unfold readyb in H. apply andb_true_iff in H. destruct H as (H & H4). apply andb_true_iff in H. destruct H as (H & H3). apply andb_true_iff in H. destruct H as (H1 & H2).
  split; [|split; [|split]].
  - destruct (acl_of b (left w)) as [[x c]|]; [|discriminate]. apply N.eqb_eq in H1. subst. eauto.
  - rewrite forallb_forall in H2. exact H2.
  - now apply list_eqb_eq.
  - now apply N.eqb_eq.
Qed.
Definition settledb (a b : addr) (w : world) : bool :=
  forallb (fun p => negb (is_question p)) (way_right b w) && forallb (fun p => negb (is_reply p)) (way_left a w).
Lemma settledb_ok : forall a b w, settledb a b w = true -> settled a b w.
Proof.
  intros a b w H. apply andb_true_iff in H. destruct H as (A & B). rewrite forallb_forall in A, B. split; intros p I; [specialize (A p I)|specialize (B p I)]; now apply negb_true_iff.
Qed.

Local Notation start := (World (new_bredr me) (new_bredr you) [] []).
Local Notation go keep := (perform same_order same_order some_config your_config me you keep).
Definition open_mask : N := 0xffffffffffffffff.
Definition prepared : list deed := connected ++
  [Do Left 1006000 (Command (SetEventMask open_mask)); Do Right 1006000 (Command (WriteName [65; 66])); Do Right 1007000 (Command (WriteHostFeatures 5))].
Definition asking : list deed :=
  [Do Left 1010000 (Command (ReadVersion 0)); Do Left 1011000 (Command (RemoteName you)); Do Left 1012000 Tick; Do Left 1013000 (Command (ReadExtendedFeatures 0 1));
   Hear Right 1013000 0; Hear Right 1014000 0; Do Right 1015000 Tick; Hear Left 1016000 0; Do Left 1017000 Tick; Hear Right 1018000 0; Hear Right 1019000 0; Do Right 1020000 Tick;
   Hear Left 1021000 0; Hear Left 1022000 0; Do Left 1023000 (Command (ReadSupportedFeatures 0)); Do Left 1024000 (Command (ReadClockOffset 0)); Do Left 1025000 Tick;
   Hear Right 1026000 0; Hear Right 1027000 0; Do Right 1028000 Tick; Hear Left 1029000 0; Hear Left 1030000 0; Hear Left 1031000 0].

Lemma remote_witness : exists hl hr w0 nl nr w,
  meanwhile same_order same_order some_config your_config me you (ready you 0 [65; 66] 5) hl hr w0 nl nr w /\ settled me you w0 /\ settled me you w /\
  told you 0 nl = [VersionComplete SUCCESS 0 12 15 7; HostFeaturesNotification you 5; RemoteNameComplete SUCCESS you [65; 66]; ExtendedFeaturesComplete SUCCESS 0 1 2 5;
                   SupportedFeaturesComplete SUCCESS 0 0x87; ClockOffsetComplete SUCCESS 0 0].
Proof.
  destruct (go (fun _ => true) [] [] [] [] start prepared) as [[[hl hr] w0]|] eqn:P; [|vm_compute in P; discriminate].
  pose proof (perform_reaches _ _ _ _ _ _ _ _ _ _ P) as R.
  assert (X : match go (fun _ => true) [] [] [] [] start prepared with
    | Some (hl, hr, w0) => readyb you 0 [65; 66] 5 w0 && settledb me you w0 &&
        match go (readyb you 0 [65; 66] 5) hl hr [] [] w0 asking with Some (nl, nr, w) => settledb me you w | None => false end
    | None => false end = true) by (vm_compute; reflexivity).
  assert (Y : match go (fun _ => true) [] [] [] [] start prepared with
    | Some (hl, hr, w0) => match go (readyb you 0 [65; 66] 5) hl hr [] [] w0 asking with Some (nl, nr, w) => told you 0 nl | None => [] end
    | None => [] end = [VersionComplete SUCCESS 0 12 15 7; HostFeaturesNotification you 5; RemoteNameComplete SUCCESS you [65; 66]; ExtendedFeaturesComplete SUCCESS 0 1 2 5;
                   SupportedFeaturesComplete SUCCESS 0 0x87; ClockOffsetComplete SUCCESS 0 0]) by (vm_compute; reflexivity).
  rewrite P in X, Y. apply andb_true_iff in X. destruct X as (X & X3). apply andb_true_iff in X. destruct X as (X1 & X2).
  destruct (go (readyb you 0 [65; 66] 5) hl hr [] [] w0 asking) as [[[nl nr] w]|] eqn:Q; [|discriminate X3].
  exists hl, hr, w0, nl, nr, w. split; [|split; [now apply settledb_ok|split; [now apply settledb_ok|exact Y]]].
  eapply perform_meanwhile; [|apply at_first; [exact R|]|exact Q]; [apply readyb_ok|now apply readyb_ok].
Qed.

(** A controller whose subversion, as in three of the presets of controller_properties.cc, has
    more than eight bits *)
Definition long_config : config := Config [0x87; 0x5; 0x9] 12 0x5ad2 15 1.
Local Notation go_long keep := (perform same_order same_order some_config long_config me you keep).
Definition asking_version : list deed :=
  [Do Left 1010000 (Command (ReadVersion 0)); Do Left 1012000 Tick; Hear Right 1013000 0; Do Right 1015000 Tick; Hear Left 1016000 0].
Lemma long_subversion : exists hl hr w0 nl nr w,
  meanwhile same_order same_order some_config long_config me you (ready you 0 [65; 66] 5) hl hr w0 nl nr w /\ settled me you w0 /\ settled me you w /\
  expected you 0 long_config [65; 66] 5 nl = [VersionComplete SUCCESS 0 12 15 0x5ad2] /\ told you 0 nl = [VersionComplete SUCCESS 0 12 15 0xd2].
Proof.
  destruct (go_long (fun _ => true) [] [] [] [] start prepared) as [[[hl hr] w0]|] eqn:P; [|vm_compute in P; discriminate].
  pose proof (perform_reaches _ _ _ _ _ _ _ _ _ _ P) as R.
  assert (X : match go_long (fun _ => true) [] [] [] [] start prepared with
    | Some (hl, hr, w0) => readyb you 0 [65; 66] 5 w0 && settledb me you w0 &&
        match go_long (readyb you 0 [65; 66] 5) hl hr [] [] w0 asking_version with Some (nl, nr, w) => settledb me you w | None => false end
    | None => false end = true) by (vm_compute; reflexivity).
  assert (Y : match go_long (fun _ => true) [] [] [] [] start prepared with
    | Some (hl, hr, w0) => match go_long (readyb you 0 [65; 66] 5) hl hr [] [] w0 asking_version with
        | Some (nl, nr, w) => (expected you 0 long_config [65; 66] 5 nl, told you 0 nl) | None => ([], []) end
    | None => ([], []) end = ([VersionComplete SUCCESS 0 12 15 0x5ad2], [VersionComplete SUCCESS 0 12 15 0xd2])) by (vm_compute; reflexivity).
  rewrite P in X, Y. apply andb_true_iff in X. destruct X as (X & X3). apply andb_true_iff in X. destruct X as (X1 & X2).
  destruct (go_long (readyb you 0 [65; 66] 5) hl hr [] [] w0 asking_version) as [[[nl nr] w]|] eqn:Q; [|discriminate X3].
  injection Y as Y1 Y2.
  exists hl, hr, w0, nl, nr, w. split; [|split; [now apply settledb_ok|split; [now apply settledb_ok|now split]]].
  eapply perform_meanwhile; [|apply at_first; [exact R|]|exact Q]; [apply readyb_ok|now apply readyb_ok].
Qed.

(** The host of one device asks for a page of features that the other does not have, and the
    other reads past the end of its array *)
Lemma absent_page : forall order cfg h s now rssi p n, (forall t, Permutation (order t) t) -> history order cfg h s -> List.length (lmp_features cfg) = 3%nat ->
  destination p = address s -> content p = ExtendedFeaturesRequest n -> 3 <= n -> step order cfg now s (Receive rssi p) = OutOfBounds.
Proof.
  intros order cfg h s now rssi p n any H PG D CO N3. cbn [step]. unfold receive, for_me. rewrite D, list_eqb_refl, orb_true_r. unfold dispatch. rewrite CO.
  unfold answering, receive_extended_request, get_features. destruct (N.eqb_spec n 1); [lia|]. rewrite (proj2 (nth_error_None _ _)); [reflexivity|]. rewrite PG. lia.
Qed.
Lemma absent_page_witness : exists hl hr w p l, reaches same_order same_order some_config your_config me you hl hr w /\ to_right w = p :: l /\ destination p = you /\
  (exists e, In e hl /\ what e = Command (ReadExtendedFeatures 0 3)) /\
  forall now rssi, step same_order your_config now (right w) (Receive rssi p) = OutOfBounds.
Proof.
  destruct (go (fun _ => true) [] [] [] [] start (prepared ++ [Do Left 1010000 (Command (ReadExtendedFeatures 0 3)); Do Left 1012000 Tick])) as [[[hl hr] w0]|] eqn:P; [|vm_compute in P; discriminate].
  assert (X : match go (fun _ => true) [] [] [] [] start (prepared ++ [Do Left 1010000 (Command (ReadExtendedFeatures 0 3)); Do Left 1012000 Tick]) with
    | Some (hl, _, w0) => (to_right w0, map what (firstn 2 hl), address (right w0)) | None => ([], [], []) end = ([Air me you (ExtendedFeaturesRequest 3)], [Tick; Command (ReadExtendedFeatures 0 3)], you)) by (vm_compute; reflexivity).
  pose proof (perform_reaches _ _ _ _ _ _ _ _ _ _ P) as R. rewrite P in X. injection X as X1 X2 X3. clear P.
  exists hl, hr, w0, (Air me you (ExtendedFeaturesRequest 3)), []. split; auto. split; auto. split; auto. split.
  - destruct hl as [|e0 [|e1 hl]]; cbn in X2; try discriminate. exists e1. split; [now right; left|congruence].
  - intros now rssi. destruct (reach_histories _ _ _ _ _ _ same_order_any same_order_any _ _ _ R) as (_ & H & _). eapply absent_page; eauto using same_order_any; try reflexivity.
Qed.
