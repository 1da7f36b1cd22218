(** Concrete histories of a host on a socket. *)
From Verif Require Import Prelude H4 H4Spec H4Proofs Transport TransportSpec TransportProofs.
Open Scope N_scope.

(** A controller that answers each command with an event, and hands an ACL packet to its host
    in each tick *)
Definition a_command : hci_packet := Command 3 12 [].
Definition an_answer : hci_packet := Event 14 [1; 3; 12; 0].
Definition some_data : hci_packet := Acl 4 0 [7; 8; 9].
Definition of_packet (k : hci_packet) : N * list N := (indicator k, body k).
Definition answers (x : delivery) (n : nat) : nat * list (N * list N) :=
  match x with ToCommand _ => (S n, [of_packet an_answer]) | _ => (n, []) end.
Definition idle (n : nat) : nat * list (N * list N) := (n, []).
Definition talks (n : nat) : nat * list (N * list N) := (n, [of_packet some_data]).
Definition twos (_ : nat) : nat := 2%nat.
Definition takes_all (_ size : nat) : taken := Takes size.
Definition fresh (_ : nat) : bool := false.
Definition old_errno (_ : nat) : bool := true.
Lemma takes_all_spacious : spacious takes_all.
Proof. intros n size. exists size. split; [reflexivity|apply le_n]. Qed.

Local Notation run_with work takes stale := (steps nat answers work idle twos takes stale (new_device nat 0%nat)).
Local Notation first_two := [HostWrites [1; 3; 12]; Tick; HostWrites [0; 2; 1; 32; 1; 0; 7; 1; 3]; Tick; HostWrites [12]].

(** Two packets in pieces, and a part of a third *)
Lemma pieces_witness : exists d out,
  written first_two = (encode a_command ++ encode (Acl 1 32 [7])) ++ [1; 3; 12] /\ parses (encode a_command ++ encode (Acl 1 32 [7])) [a_command; Acl 1 32 [7]] /\
  run_with idle takes_all fresh (first_two ++ [Tick]) = Ok (d, out) /\ handed out = map deliver [a_command; Acl 1 32 [7]] /\
  offered out = map of_packet [an_answer] /\ received out = encode an_answer /\ opened nat d = true.
Proof.
  assert (P : parses (encode a_command ++ encode (Acl 1 32 [7])) [a_command; Acl 1 32 [7]]).
  { apply parses_packet; [reflexivity|]. rewrite <- (app_nil_r (encode (Acl 1 32 [7]))). apply parses_packet; [reflexivity|constructor]. }
  eexists. eexists. split; [reflexivity|]. split; [exact P|]. clear P. vm_compute. repeat split; reflexivity.
Qed.

(** The host closes, the device leaves *)
Lemma closing_witness : exists d out,
  run_with idle takes_all fresh [HostWrites (encode a_command); Tick; HostCloses; Tick; Tick; RunTask; Tick] = Ok (d, out) /\
  opened nat d = false /\ handed out = [deliver a_command] /\ removals out = 1%nat.
Proof. eexists. eexists. vm_compute. repeat split; reflexivity. Qed.

(** An event from the host ends the process *)
Lemma event_aborts : forall (W : Type) handle work shut gives takes stale (w : W) c q, lenN q <? 256 = true ->
  steps W handle work shut gives takes stale (new_device W w) [HostWrites (encode (Event c q)); Tick] = Abort.
Proof.
  intros. apply (aborts_on_event W handle work shut gives takes stale w [HostWrites (encode (Event c q))] (encode (Event c q)) [] [Event c q]); auto.
  rewrite <- (app_nil_r (encode (Event c q))). apply parses_packet; [exact H|constructor].
Qed.
(** An error of the connection other than a reset ends the process *)
Lemma error_aborts : forall (W : Type) handle work shut gives takes stale (w : W),
  steps W handle work shut gives takes stale (new_device W w) [Breaks OtherError; Tick] = Abort.
Proof. reflexivity. Qed.

(** A write that is refused: the host reads a packet that was never sent *)
Definition refuses_first (n size : nat) : taken := match n with O => Refuses | _ => Takes size end.
Lemma refused_write : exists d out k rest,
  run_with talks refuses_first fresh [Tick] = Ok (d, out) /\ offered out = [of_packet some_data] /\
  received out = encode k ++ rest /\ wf_packet k = true /\ ~ In (of_packet k) (offered out).
Proof.
  eexists. eexists. exists (Event 0 [0; 7; 8]), [9]. vm_compute. do 4 (split; [reflexivity|]). intros [I|[]]. discriminate I.
Qed.
(** A short write: the next packet is read as the rest of this one *)
Definition short_first (n size : nat) : taken := match n with S O => Takes 4 | _ => Takes size end.
Lemma short_write : exists d out k rest,
  run_with talks short_first fresh [Tick; Tick] = Ok (d, out) /\ offered out = [of_packet some_data; of_packet some_data] /\
  received out = encode k ++ rest /\ wf_packet k = true /\ ~ In (of_packet k) (offered out).
Proof.
  eexists. eexists. exists (Acl 4 0 [2; 4; 0]), [3; 0; 7; 8; 9]. vm_compute. do 4 (split; [reflexivity|]). intros [I|[I|[]]]; discriminate I.
Qed.
(** A host that ends its stream after a command: whether it is answered depends on an old errno *)
Lemma last_answer : exists d out d' out',
  run_with idle takes_all fresh [HostWrites (encode a_command); HostCloses; Tick] = Ok (d, out) /\
  run_with idle takes_all old_errno [HostWrites (encode a_command); HostCloses; Tick] = Ok (d', out') /\
  handed out = [deliver a_command] /\ handed out' = [deliver a_command] /\
  received out = [] /\ dropped out = [of_packet an_answer] /\ received out' = encode an_answer.
Proof. do 4 eexists. vm_compute. repeat split; reflexivity. Qed.
