(** Concrete histories of the server. *)
From Coq Require Import String.
From Verif Require Import Prelude Table Address PhyModel PhyModelSpec TestCommand Server ServerSpec ServerProofs ServerClients ServerTest.
Open Scope N_scope.

Local Notation pre := [218; 76; 16; 222; 0].
Local Notation free := (fun _ : nat => true).
Local Notation past config binds sniffer l s o := (history 0 config binds sniffer pre l s o).
Local Notation step s e := (step_event (C := N) s e).
(** The main thread sets [n] servers up. *)
Definition boot (n : nat) : list event := repeat (Main true true) (16 + n).
Definition ask (c : N) (name : String.string) (args : list String.string) : event := Request c (str name) (map str args).
Definition task_done : list event := [Begin; Finish true true].
Local Ltac show l := exists l; do 2 eexists; split; [vm_compute; reflexivity|].

(** Two hosts on two servers, the second leaves. *)
Lemma two_hosts : exists l s o, past (Some [7; 8]) free false l s o /\ hosts (services 0 (Some [7; 8])) o = [(0, 8); (1, 7)] /\
  controllers o = [(0, 8); (1, 7)] /\ waiting s = [] /\ controller_of s 2 0 4 /\ controller_of s 3 1 3 /\
  option_map attached (lookup (devices (sim s)) 2) = Some [0; 1] /\
  exists s2 o2, past (Some [7; 8]) free false (l ++ [BeginTick [2]; Finish true true; Begin]) s2 o2 /\ running s2 = Some (Closed 2) /\
  exists s3 o3, step s2 (Finish true true) = Next s3 o3 /\ ~ controller_of s3 2 0 4 /\ controller_of s3 3 1 3.
Proof.
  show (boot 5 ++ [Connect 4 true; Connect 3 true] ++ task_done ++ task_done)%list.
  do 3 (split; [vm_compute; reflexivity|]). split; [exists (Some 8); vm_compute; reflexivity|]. split; [exists (Some 7); vm_compute; reflexivity|].
  split; [vm_compute; reflexivity|]. do 2 eexists. split; [vm_compute; reflexivity|]. split; [vm_compute; reflexivity|].
  do 2 eexists. split; [vm_compute; reflexivity|]. split; [intros [x X]; vm_compute in X; discriminate|exists (Some 7); vm_compute; reflexivity].
Qed.

(** A host waits for its controller. *)
Lemma host_waits : exists l s o, past None free false l s o /\ running s = Some (Attach 0 3 0) /\ waiting s = [(0, 0)] /\
  always patient (start 0 None free false pre) l = true /\ always no_link (start 0 None free false pre) l = true.
Proof. show (boot 4 ++ [Connect 3 true; Begin])%list. repeat apply conj; vm_compute; reflexivity. Qed.

(** A client of a link layer server. *)
Lemma link_client : exists l s o, past None free false l s o /\ adding s = Some (2%nat, 0, LowEnergy) /\
  exists s2 o2, step s Added = Next s2 o2 /\ lookup (owners s2) 2 = Some (Peer 0 LowEnergy) /\
  option_map attached (lookup (devices (sim s2)) 2) = Some [1].
Proof. show (boot 4 ++ [Connect 2 true])%list. split; [vm_compute; reflexivity|]. do 2 eexists. repeat apply conj; vm_compute; reflexivity. Qed.

(** A test client asks for the list; a second one is turned away. *)
Lemma test_client : exists l s o, past None free false l s o /\ always patient (start 0 None free false pre) l = true /\
  watched s = [0] /\ running s = Some (Command 0 (str "list") []) /\ texts 0 o = [Greeting] /\ texts 1 o = [Broken] /\
  exists s2 o2 r, step s (Finish true true) = Next s2 o2 /\ o2 = [Sent 0 (Answer (str "list") r)].
Proof.
  show (boot 4 ++ [Connect 0 true; Connect 0 true; ask 0 "list" []; Begin])%list.
  do 5 (split; [vm_compute; reflexivity|]). do 3 eexists. split; vm_compute; reflexivity.
Qed.

(** The main thread has set the topology up. *)
Lemma set_up : exists l s o r, past None free false l s o /\ always patient (start 0 None free false pre) l = true /\
  todo s = Listen 1 :: r /\ sim s = first_topology pre.
Proof. exists (repeat (Main true true) 17). do 3 eexists. repeat apply conj; vm_compute; reflexivity. Qed.

(** ** What can go wrong *)

(** The answer to a command of one test client is read by the next one. *)
Lemma answer_to_another : exists l s o c x name args s2 o2 t, past None free false l s o /\ running s = Some (Command c name args) /\
  step s (Finish true true) = Next s2 o2 /\ o2 = [Sent x t] /\ is_answer t = true /\ x <> c /\
  (forall n a, ~ In (Request x n a) l).
Proof.
  exists (boot 4 ++ [Connect 0 true; ask 0 "list" []; Leave 0; Connect 0 true; Begin])%list.
  eexists. eexists. exists 0, 1, (str "list"), []. do 3 eexists.
  split; [vm_compute; reflexivity|]. do 4 (split; [vm_compute; reflexivity|]). split; [discriminate|].
  intros n a K. vm_compute in K. repeat (destruct K as [K|K]; [discriminate|]). exact K.
Qed.
(** A test client that comes early reads answers to commands that it did not give. *)
Lemma answers_unasked : exists l s o c r, past None free false l s o /\ texts c o = [Greeting; Answer (str "add_phy") r] /\
  (forall x n a, ~ In (Request x n a) l).
Proof.
  exists [Main true true; Connect 0 true; Main true true; Main true true]. do 2 eexists. exists 0. eexists.
  split; [vm_compute; reflexivity|]. split; [vm_compute; reflexivity|].
  intros x n a K. cbn in K. repeat (destruct K as [K|K]; [discriminate|]). exact K.
Qed.
(** A test client that comes early and adds a beacon keeps one of the beacons of
    the simulator off the air. *)
Lemma topology_spoiled : exists l s o r, past None free false l s o /\ todo s = Listen 1 :: r /\ sim s <> first_topology pre /\
  lookup (devices (sim s)) 2 = Some {| addr := beacon 2; attached := [] |} /\
  forallb (fun y => negb (mem 2 (members (snd y)))) (layers (sim s)) = true.
Proof.
  exists ([Main true true; Connect 0 true; ask 0 "add" ["beacon"; "00:00:00:00:00:01"; "1000"]; Begin; Finish true true] ++ repeat (Main true true) 16)%list%string.
  do 3 eexists. split; [vm_compute; reflexivity|]. split; [vm_compute; reflexivity|]. split; [vm_compute; discriminate|].
  split; vm_compute; reflexivity.
Qed.
(** A client of a link layer server is added by one thread while the other one
    ticks the devices. *)
Lemma link_race : exists l s o, past None free false l s o /\ always patient (start 0 None free false pre) l = true /\
  step s (Connect 1 true) = Race.
Proof. show (boot 4 ++ [BeginTick []])%list. repeat apply conj; vm_compute; reflexivity. Qed.
(** The main thread adds the sniffer while the other one ticks. *)
Lemma sniffer_race : exists l s o, past None free true l s o /\ always patient (start 0 None free true pre) l = true /\
  always no_link (start 0 None free true pre) l = true /\ step s (Main true true) = Race.
Proof. show (boot 4 ++ [BeginTick []])%list. repeat apply conj; vm_compute; reflexivity. Qed.
(** A test client comes early, and its command is executed during a call of the
    main thread. *)
Lemma early_race : exists l s o, past None free false l s o /\ always no_link (start 0 None free false pre) l = true /\
  step s Begin = Race.
Proof. show [Main true true; Connect 0 true; ask 0 "list" []; Main true true]. repeat apply conj; vm_compute; reflexivity. Qed.
(** A second END_SIMULATION stops the process; nothing refuses it. *)
Lemma end_twice : exists l s o, past None free false l s o /\ always patient (start 0 None free false pre) l = true /\
  In Ended o /\ step s (Finish true true) = Crash.
Proof.
  show (boot 4 ++ [Connect 0 true; ask 0 "END_SIMULATION" []; ask 0 "END_SIMULATION" []] ++ task_done ++ [Begin])%list.
  split; [vm_compute; reflexivity|]. split; [|vm_compute; reflexivity]. vm_compute. auto 10.
Qed.
(** A test client that is turned away and is gone, or one that is gone when its
    answer is written, stops the process. *)
Lemma client_gone : exists l s o, past None free false l s o /\ always patient (start 0 None free false pre) l = true /\
  step s (Connect 0 false) = Crash /\ running s = Some (Command 0 (str "list") []) /\ step s (Finish false true) = Crash.
Proof. show (boot 4 ++ [Connect 0 true; ask 0 "list" []; Begin])%list. repeat apply conj; vm_compute; reflexivity. Qed.
(** An unreadable number stops the process. *)
Lemma bad_number : exists l s o, past None free false l s o /\ always patient (start 0 None free false pre) l = true /\
  step s (Finish true true) = Crash.
Proof. show (boot 4 ++ [Connect 0 true; ask 0 "add" ["beacon"; "be:ac:01:55:00:01"; "x"]; Begin])%list%string. repeat apply conj; vm_compute; reflexivity. Qed.
Definition all_but_test (i : nat) : bool := negb (Nat.eqb i 0).
(** The port of the test channel is taken by another process: the simulator
    starts, and nobody can command or end it. *)
Lemma deaf : exists l s o, past None all_but_test false l s o /\ todo s = [] /\ 
  step s (Connect 0 true) = Blocked /\ exists s2 o2, step s (Connect 3 true) = Next s2 o2.
Proof. show (boot 4). split; [vm_compute; reflexivity|]. split; [vm_compute; reflexivity|]. do 2 eexists. vm_compute. reflexivity. Qed.
(** Another client can take the controller of a host away with the command del. *)
Lemma taken_away : exists l s o, past None free false l s o /\ controller_of s 2 0 3 /\ running s = Some (Command 1 (str "del") [str "2"]) /\
  exists s2 o2, step s (Finish true true) = Next s2 o2 /\ lookup (owners s2) 2 = None.
Proof.
  show (boot 4 ++ [Connect 3 true] ++ task_done ++ [Connect 0 true; ask 1 "del" ["2"]; Begin])%list%string.
  split; [exists (Some 0); vm_compute; reflexivity|]. split; [vm_compute; reflexivity|]. do 2 eexists. split; vm_compute; reflexivity.
Qed.
