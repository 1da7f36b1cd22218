(** Runs of two controllers that change the roles of their link. *)
From Coq Require Import Permutation.
From Verif Require Import Prelude Table Sco Bredr BredrBase BredrInv BredrSpec BredrFlow BredrPairSpec BredrPair BredrRoleSpec BredrWitness BredrPairWitness.
Open Scope N_scope.

Local Notation start := (World (new_bredr me) (new_bredr you) [] []).
Local Notation go keep := (perform same_order same_order some_config your_config me you keep).
Definition is_some {T : Type} (o : option T) : bool := match o with Some _ => true | None => false end.
Definition steadyb (a b : addr) (allowed : bool) (w : world) : bool :=
  is_some (role_with b (left w)) && is_some (role_with a (right w)) &&
  match acl_of b (left w) with Some (_, c) => Bool.eqb (N.testbit (acl_policy c) 0) allowed | None => false end && unmasked (left w) 0x12 && negb (is_some (role_with empty_address (left w))).
Lemma steadyb_ok : forall a b allowed w, steadyb a b allowed w = true -> role_steady a b allowed w.
Proof.
  intros a b allowed w H. unfold steadyb in H. repeat (apply andb_true_iff in H; destruct H as (H & ?)). split; [split|split; [|split]].
  - now destruct (role_with b (left w)).
  - now destruct (role_with a (right w)).
  - destruct (acl_of b (left w)) as [[h c]|]; [|discriminate]. exists h, c. split; auto. now apply eqb_prop.
  - assumption.
  - now destruct (role_with empty_address (left w)).
Qed.
Definition role_settledb (a b : addr) (w : world) : bool :=
  forallb (fun p => negb (switching p)) (way_right b w) && forallb (fun p => negb (switching p)) (way_left a w) && match roles_to_tell b (left w) with [] => true | _ => false end.
Lemma role_settledb_ok : forall a b w, role_settledb a b w = true -> role_settled a b w.
Proof.
  intros a b w H. apply andb_true_iff in H. destruct H as (H & C). apply andb_true_iff in H. destruct H as (A & B). rewrite forallb_forall in A, B.
  split; [|split]; [intros p I; specialize (A p I); now apply negb_true_iff|intros p I; specialize (B p I); now apply negb_true_iff|]. now destruct (roles_to_tell b (left w)).
Qed.
Definition all_events : N := 0xffffffffffffffff.
Definition roles_prepared : list deed := connected ++ [Do Left 1006000 (Command (SetEventMask all_events)); Do Right 1006000 (Command (WriteLinkPolicy 0 1))].
Definition roles_changed : list deed :=
  [Do Left 1010000 (Command (SwitchRole you PERIPHERAL)); Do Left 1011000 Tick; Hear Right 1012000 0; Do Right 1013000 Tick; Hear Left 1014000 0; Do Left 1015000 Tick;
   Do Left 1016000 (Command (SwitchRole you PERIPHERAL)); Do Left 1017000 Tick; Do Right 1018000 (Command (SwitchRole me PERIPHERAL)); Do Right 1019000 Tick; Hear Left 1020000 0;
   Do Left 1021000 Tick; Hear Right 1022000 0; Do Right 1023000 Tick].
Lemma roles_witness : exists hl hr w0 nl nr w,
  meanwhile same_order same_order some_config your_config me you (role_steady me you false) hl hr w0 nl nr w /\
  role_with you (left w0) = Some CENTRAL /\ role_with me (right w0) = Some PERIPHERAL /\ agreements me you w0 = 0%nat /\ role_settled me you w0 /\
  role_with you (left w) = Some PERIPHERAL /\ role_with me (right w) = Some CENTRAL /\ agreements me you w = 0%nat /\ role_settled me you w /\
  roles_told you nl = [(SUCCESS, PERIPHERAL); (ROLE_SWITCH_FAILED, PERIPHERAL)] /\ switch_commands you nl = 2%nat /\ switch_requests you nl = 1%nat.
Proof.
  destruct (go (fun _ => true) [] [] [] [] start roles_prepared) as [[[hl hr] w0]|] eqn:P; [|vm_compute in P; discriminate].
  pose proof (perform_reaches _ _ _ _ _ _ _ _ _ _ P) as R.
  assert (X : match go (fun _ => true) [] [] [] [] start roles_prepared with
    | Some (hl, hr, w0) => steadyb me you false w0 && role_settledb me you w0 &&
        match go (steadyb me you false) hl hr [] [] w0 roles_changed with Some (nl, nr, w) => role_settledb me you w | None => false end
    | None => false end = true) by (vm_compute; reflexivity).
  assert (Y : match go (fun _ => true) [] [] [] [] start roles_prepared with
    | Some (hl, hr, w0) => match go (steadyb me you false) hl hr [] [] w0 roles_changed with
        Some (nl, nr, w) => ((role_with you (left w0), role_with me (right w0), agreements me you w0), (role_with you (left w), role_with me (right w), agreements me you w),
                             roles_told you nl, switch_commands you nl, switch_requests you nl) | None => ((None, None, 1%nat), (None, None, 1%nat), [], 0%nat, 0%nat) end
    | None => ((None, None, 1%nat), (None, None, 1%nat), [], 0%nat, 0%nat) end =
    ((Some CENTRAL, Some PERIPHERAL, 0%nat), (Some PERIPHERAL, Some CENTRAL, 0%nat), [(SUCCESS, PERIPHERAL); (ROLE_SWITCH_FAILED, PERIPHERAL)], 2%nat, 1%nat)) by (vm_compute; reflexivity).
  rewrite P in X, Y. apply andb_true_iff in X. destruct X as (X & X3). apply andb_true_iff in X. destruct X as (X1 & X2).
  destruct (go (steadyb me you false) hl hr [] [] w0 roles_changed) as [[[nl nr] w]|] eqn:Q; [|discriminate X3]. injection Y as Y1 Y2 Y3 Y4 Y5 Y6 Y7 Y8 Y9.
  exists hl, hr, w0, nl, nr, w. repeat match goal with |- _ /\ _ => split end; auto; try (now apply role_settledb_ok).
  eapply perform_meanwhile; [|apply at_first; [exact R|]|exact Q]; [apply steadyb_ok|now apply steadyb_ok].
Qed.

(** Both hosts create a connection to each other and both accept that of the other: then both
    controllers are the Peripheral *)
Definition collision : list deed :=
  [Do Left 0 (Command (WriteScanEnable true true)); Do Right 0 (Command (WriteScanEnable true true));
   Do Left 1000 (Command (CreateConnection you 1)); Do Right 1000 (Command (CreateConnection me 1));
   Do Left 1001000 Tick; Do Left 1002000 Tick; Do Right 1001000 Tick; Do Right 1002000 Tick; Hear Left 1003000 0; Hear Right 1003000 0;
   Do Left 1004000 (Command (AcceptConnection you false)); Do Right 1004000 (Command (AcceptConnection me false)); Do Left 1005000 Tick; Do Right 1005000 Tick; Hear Left 1006000 0; Hear Right 1006000 0].
Lemma collision_witness : exists hl hr w, reaches same_order same_order some_config your_config me you hl hr w /\
  way_right you w = [] /\ way_left me w = [] /\ role_with you (left w) = Some PERIPHERAL /\ role_with me (right w) = Some PERIPHERAL.
Proof.
  destruct (go (fun _ => true) [] [] [] [] start collision) as [[[hl hr] w0]|] eqn:P; [|vm_compute in P; discriminate].
  assert (Y : match go (fun _ => true) [] [] [] [] start collision with
    | Some (hl, hr, w) => (way_right you w, way_left me w, role_with you (left w), role_with me (right w)) | None => ([], [], None, None) end = ([], [], Some PERIPHERAL, Some PERIPHERAL)) by (vm_compute; reflexivity).
  rewrite P in Y. injection Y as Y1 Y2 Y3 Y4. exists hl, hr, w0. repeat match goal with |- _ /\ _ => split end; auto. now apply perform_reaches in P.
Qed.
(** The two ends of a link that has just been set up *)
Lemma new_roles_witness : exists hl hr w, reaches same_order same_order some_config your_config me you hl hr w /\ role_with you (left w) = None /\ role_with me (right w) = None /\
  exists e1 w1 e2 w2 e4 w4, moves same_order same_order some_config your_config me you w Right e1 w1 /\ what e1 = Command (AcceptConnection me true) /\ role_with me (right w1) = Some CENTRAL /\
  moves same_order same_order some_config your_config me you w1 Right e2 w2 /\ moves same_order same_order some_config your_config me you w2 Left e4 w4 /\ role_with you (left w4) = Some PERIPHERAL.
Proof.
  destruct (go (fun _ => true) [] [] [] [] start (firstn 5 connected)) as [[[hl hr] w]|] eqn:P; [|vm_compute in P; discriminate].
  pose proof (perform_reaches _ _ _ _ _ _ _ _ _ _ P) as R. exists hl, hr, w. split; [exact R|].
  assert (E : w = match go (fun _ => true) [] [] [] [] start (firstn 5 connected) with Some (_, _, w) => w | None => start end) by now rewrite P. clear P R. subst w.
  split; [vm_compute; reflexivity|]. split; [vm_compute; reflexivity|].
  match goal with |- exists e1 w1 e2 w2 e4 w4, moves _ _ _ _ _ _ ?w _ _ _ /\ _ => set (w0 := w) end.
  destruct (next same_order same_order some_config your_config me you w0 (Do Right 1003000 (Command (AcceptConnection me true)))) as [[[d1 e1] w1]|] eqn:N1; [|vm_compute in N1; discriminate].
  destruct (next same_order same_order some_config your_config me you w1 (Do Right 1004000 Tick)) as [[[d2 e2] w2]|] eqn:N2; [|vm_compute in N1; injection N1 as <- <- <-; vm_compute in N2; discriminate].
  destruct (next same_order same_order some_config your_config me you w2 (Hear Left 1005000 0)) as [[[d4 e4] w4]|] eqn:N4; [|vm_compute in N1; injection N1 as <- <- <-; vm_compute in N2; injection N2 as <- <- <-; vm_compute in N4; discriminate].
  exists e1, w1, e2, w2, e4, w4.
  pose proof (next_moves _ _ _ _ _ _ _ _ _ _ _ N1) as M1. pose proof (next_moves _ _ _ _ _ _ _ _ _ _ _ N2) as M2. pose proof (next_moves _ _ _ _ _ _ _ _ _ _ _ N4) as M4.
  vm_compute in N1. injection N1 as <- <- <-. vm_compute in N2. injection N2 as <- <- <-. vm_compute in N4. injection N4 as <- <- <-.
  repeat match goal with |- _ /\ _ => split end; auto.
Qed.
