(** Property theorems C01-C04: H4 framing. *)
From Verif Require Import Prelude H4 H4Spec H4Proofs.
Open Scope N_scope.

(** C01: any list of packets, encoded and split in any way that respects the
    parser's requests, is delivered exactly and in order. *)
Theorem C01_h4_roundtrip :
  forall (recovery : bool) (packets : list hci_packet) (reads : list (list N)),
    forallb wf_packet packets = true ->
    concat reads = concat (map encode packets) ->
    respects (init recovery) reads = true ->
    exists p', run (init recovery) reads = Done true p' (map deliver packets) /\ ready p'.
Proof. exact C01_h4_roundtrip_lemma. Qed.
Print Assumptions C01_h4_roundtrip.

Example C01_nonvacuous :
  let packets := [Command 3 12 []; Acl 1 32 [7; 8; 9]; Iso 0 0 4 [1; 2]] in
  let reads := [[1]; [3; 12]; [0]; [2]; [1; 32; 3; 0]; [7]; [8; 9]; [5]; [0; 0; 2; 64]; [1; 2]] in
  forallb wf_packet packets = true /\ concat reads = concat (map encode packets) /\
  respects (init false) reads = true.
Proof. vm_compute. repeat split. Qed.

(** C01, whole data path: packets written by Send and read by the OnDataReady
    loop, whatever number of bytes each read returns. *)
Theorem C01_packetizer_roundtrip :
  forall (packets : list hci_packet) (read_sizes : list nat),
    forallb wf_packet packets = true ->
    (length (concat (map (fun k => send (indicator k) (body k)) packets)) <= length read_sizes)%nat ->
    exists p',
      on_data_ready (init true)
        (concat (map (fun k => send (indicator k) (body k)) packets)) read_sizes
      = Some (p', map deliver packets, []) /\ ready p'.
Proof. exact (fun packets sizes => packetizer_roundtrip true packets sizes eq_refl). Qed.
Print Assumptions C01_packetizer_roundtrip.

Example C01_packetizer_nonvacuous :
  on_data_ready (init true) (encode (Event 14 [1; 3; 12; 0]) ++ encode (Command 3 12 []))
    [5%nat; 1%nat; 7%nat; 2%nat; 9%nat; 0%nat; 4%nat; 4%nat; 4%nat] <> None.
Proof. vm_compute. discriminate. Qed.

(** C02: in recovery mode a caller that respects the requests never makes the
    parser abort or read out of bounds, and the parser always asks for at
    least one byte. *)
Theorem C02_h4_progress :
  forall (reads : list (list N)),
    respects (init true) reads = true ->
    exists p' out, run (init true) reads = Done true p' out /\ 1 <= bytes_requested p'.
Proof. exact C02_h4_progress_lemma. Qed.
Print Assumptions C02_h4_progress.

(** C02: without recovery the only abnormal outcome is the intended abort;
    there is never an out-of-bounds access. *)
Theorem C02_h4_memory_safe :
  forall (recovery : bool) (reads : list (list N)),
    respects (init recovery) reads = true -> run (init recovery) reads <> Undefined.
Proof. exact (fun r reads H => proj1 (respects_no_ub _ _ (inv_init r) H)). Qed.
Print Assumptions C02_h4_memory_safe.

(** C02: in the middle of packet [k], of which [rest] is still to come, the
    parser asks for at least one byte and never for more than [rest]. *)
Theorem C02_h4_never_overreads :
  forall (recovery : bool) (before : list hci_packet) (k : hci_packet) (a rest : list N)
         (reads : list (list N)),
    forallb wf_packet before = true -> wf_packet k = true ->
    encode k = a ++ rest -> rest <> [] ->
    concat reads = concat (map encode before) ++ a ->
    respects (init recovery) reads = true ->
    exists p', run (init recovery) reads = Done true p' (map deliver before) /\
      1 <= bytes_requested p' <= lenN rest.
Proof. exact C02_h4_never_overreads_lemma. Qed.
Print Assumptions C02_h4_never_overreads.

Example C02_nonvacuous :
  encode (Acl 1 2 [5; 6; 7]) = [2; 1; 2] ++ [3; 0; 5; 6; 7] /\
  respects (init true) [[1]; [3; 12; 0]; [2]; [1; 2]] = true /\
  concat [[1]; [3; 12; 0]; [2]; [1; 2]] = concat (map encode [Command 3 12 []]) ++ [2; 1; 2].
Proof. vm_compute. repeat split. Qed.

(** C03: after an invalid indicator nothing is delivered while the garbage does
    not contain the reset sequence. *)
Theorem C03_h4_resync_silent :
  forall (before : list hci_packet) (g : N) (junk : list N) (reads : list (list N)),
    forallb wf_packet before = true -> valid_indicator g = false ->
    ~ contains_reset junk ->
    concat reads = concat (map encode before) ++ g :: junk ->
    respects (init true) reads = true ->
    exists p', run (init true) reads = Done true p' (map deliver before) /\ st p' = HCI_RECOVERY.
Proof. exact C03_h4_resync_silent_lemma. Qed.
Print Assumptions C03_h4_resync_silent.

(** C03 and C01 together: the streams after which the parser is ready are
    exactly those that [parses] describes, and the packets delivered are
    exactly those it lists (packets, and one Reset command for the first reset
    sequence of each out-of-sync episode). *)
Theorem C03_h4_stream_semantics :
  forall (reads : list (list N)) (out : list delivery),
    forallb is_byte (concat reads) = true ->
    respects (init true) reads = true ->
    (exists p', run (init true) reads = Done true p' out /\ ready p') <->
    (exists packets, parses (concat reads) packets /\ out = map deliver packets).
Proof. exact C03_h4_stream_semantics_lemma. Qed.
Print Assumptions C03_h4_stream_semantics.

Example C03_nonvacuous :
  respects (init true) [[9]; [1]; [1]; [3]; [1]; [3]; [12]; [0]; [4]; [14; 1]; [0]] = true /\
  parses (concat [[9]; [1]; [1]; [3]; [1]; [3]; [12]; [0]; [4]; [14; 1]; [0]])
         [Command 3 12 []; Event 14 [0]].
Proof.
  split; [vm_compute; reflexivity|].
  exact (parses_resync 9 [1; 1; 3] _ _ eq_refl example_first_reset
          (parses_packet (Event 14 [0]) [] [] eq_refl parses_nil)).
Qed.

(** C03: an out-of-sync episode closed by the first reset sequence delivers
    the Reset command exactly once and normal parsing resumes. *)
Theorem C03_h4_resync_delivers :
  forall (before after : list hci_packet) (g : N) (junk : list N) (reads : list (list N)),
    forallb wf_packet before = true -> forallb wf_packet after = true ->
    valid_indicator g = false ->
    (forall j x, junk ++ hci_reset = j ++ [x] -> ~ contains_reset j) ->
    concat reads = concat (map encode before) ++ (g :: junk ++ hci_reset) ++ concat (map encode after) ->
    respects (init true) reads = true ->
    exists p', run (init true) reads
      = Done true p' (map deliver (before ++ Command 3 12 [] :: after)) /\ ready p'.
Proof. exact C03_h4_resync_delivers_lemma. Qed.
Print Assumptions C03_h4_resync_delivers.

(** C04: two ways of splitting the same byte stream give the same packets and
    the same final parser state, from any parser state. *)
Theorem C04_h4_chunking :
  forall (p : parser) (reads1 reads2 : list (list N)),
    respects p reads1 = true -> respects p reads2 = true ->
    concat reads1 = concat reads2 -> run p reads1 = run p reads2.
Proof. exact chunking_independent. Qed.
Print Assumptions C04_h4_chunking.

Example C04_nonvacuous :
  respects (init false) [[2]; [1; 2; 3; 0]; [5; 6; 7]] = true /\
  respects (init false) [[2]; [1]; [2; 3]; [0]; [5]; [6; 7]] = true /\
  run (init false) [[2]; [1; 2; 3; 0]; [5; 6; 7]] <> Fatal.
Proof. vm_compute. repeat split; discriminate. Qed.
