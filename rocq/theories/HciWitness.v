(** Concrete histories of the HCI front end. *)
From Verif Require Import Prelude HciTables Hci HciSpec HciProofs HciHistory.
Open Scope N_scope.

(** A controller behind the front end that always succeeds. *)
Definition quiet (op : N) (b : list N) (w : unit) : option (answer unit) :=
  Some {| status := 0; returned := []; raised := []; next := tt |}.

(** The default properties. *)
Definition usual : config := {|
  strict := true; commands := mask_of advertised; error_before_reset := false; has_csr := true;
  has_capabilities := true; has_apcf := true; codes := 4; name := repeat 65 248; tolerant := true |}.

Local Notation begin := (start unit usual tt).
Local Notation steps := (ran unit quiet true usual).
Local Notation command := (command unit quiet true usual).
Local Notation Done := (Done unit).

Fixpoint drive (s : state unit) (l : list input) : option (list (input * list effect) * state unit) :=
  match l with
  | [] => Some ([], s)
  | i :: l' =>
      match step unit quiet true usual s i with
      | Hci.Done _ s' e =>
          match drive s' l' with
          | Some (h, t) => Some ((i, e) :: h, t)
          | None => None
          end
      | _ => None
      end
  end.

Lemma drive_ran l : forall s h t, drive s l = Some (h, t) -> steps s h t.
Proof.
  induction l as [| i l IH]; intros s h t H; cbn [drive] in H.
  - injection H as <- <-. constructor.
  - destruct (step unit quiet true usual s i) eqn:E; try discriminate.
    destruct (drive s0 l) as [[h' t'] |] eqn:D; [| discriminate].
    injection H as <- <-. econstructor; [exact E | now apply IH].
Qed.

Definition log_of (l : list input) : list (input * list effect) :=
  match drive begin l with Some (h, _) => h | None => [] end.
Definition last_of (l : list input) : state unit :=
  match drive begin l with Some (_, t) => t | None => begin end.
Definition runs (l : list input) : bool := match drive begin l with Some _ => true | None => false end.

Lemma runs_ran l : runs l = true -> steps begin (log_of l) (last_of l).
Proof.
  unfold runs, log_of, last_of. destruct (drive begin l) as [[h t] |] eqn:D; [| discriminate].
  intros _. now apply drive_ran in D.
Qed.

(** Reset, Write Scan Enable, Disconnect, data, Read Scan Enable. *)
Definition chat : list input := [
  Command (packet 0x0c03 []); Command (packet 0x0c1a [3]); Command (packet 0x0406 [0x05; 0x00; 0x13]);
  AclData [0x05; 0x20; 0x02; 0x00; 0xaa; 0xbb]; Command (packet 0x0c19 [])].

Lemma chat_runs : steps begin (log_of chat) (last_of chat) /\ map fst (log_of chat) = chat /\
  error_before_reset usual = false /\ Forall ordinary (log_of chat) /\
  answers (all_effects (log_of chat)) = [(0x0c03, 1); (0x0c1a, 1); (0x0406, 1); (0x0c19, 1)].
Proof.
  split; [apply runs_ran; vm_compute; reflexivity |].
  split; [vm_compute; reflexivity |]. split; [reflexivity |]. split; [| vm_compute; reflexivity].
  assert (O : forall op b l, opcode (packet op b) = op -> mem op for_link_manager = false -> mem op for_link_layer = false ->
      (op =? CSR_COMMAND) = false -> (op =? 0x1802) = false ->
      (op =? DISCONNECT) && ((opcode (parameters (packet op b)) mod 4096) / 256 =? 0xe) = false ->
      no_complaint l -> ordinary (Command (packet op b), l)).
  { intros op b l E A B C D F G. unfold ordinary, own_request, enters_loopback, ends_stream. cbn [fst snd]. rewrite !E.
    split; [| split; [| exact G]].
    - split; [intros H; apply mem_in in H; congruence |].
      split; [intros H; apply mem_in in H; congruence |].
      split; [now apply N.eqb_neq |].
      intros [H J]. subst op. rewrite J in F. discriminate.
    - intros [H _]. subst op. discriminate. }
  assert (L : log_of chat = log_of chat) by reflexivity. revert L. generalize (log_of chat) at 2. intros l L.
  vm_compute in L. subst l.
  constructor; [apply (O 0x0c03 []); try (vm_compute; reflexivity); exact Logic.I |].
  constructor; [apply (O 0x0c1a [3]); try (vm_compute; reflexivity); exact Logic.I |].
  constructor; [apply (O 0x0406 [0x05; 0x00; 0x13]); try (vm_compute; reflexivity); exact Logic.I |].
  constructor; [exact Logic.I |].
  constructor; [apply (O 0x0c19 []); try (vm_compute; reflexivity); exact Logic.I |].
  constructor.
Qed.

Lemma begin_operational : operational usual begin.
Proof. split; [discriminate | left; reflexivity]. Qed.

Lemma packet_sound op b : op < 65536 -> sound true (packet op b).
Proof.
  intros H. unfold sound, well_framed, packet. cbn [nth]. rewrite !lenN_cons. split; [lia | intros _; lia].
Qed.

(** Flush is advertised and takes the controller down. *)
Lemma flush_aborts : operational usual begin /\ sound true (packet 0x0c08 [1; 0]) /\
  shown (commands usual) 6 1 = true /\ In (0x0c08, 6, 1) core_positions /\
  command begin (packet 0x0c08 [1; 0]) = Hci.Abort unit [].
Proof.
  split; [exact begin_operational |]. split; [apply packet_sound; reflexivity |].
  split; [vm_compute; reflexivity |]. split; [| vm_compute; reflexivity].
  assert (B : existsb (fun e => match e with (op, o, b) => (op =? 0x0c08) && (o =? 6) && (b =? 1) end) core_positions = true)
    by (vm_compute; reflexivity).
  apply existsb_exists in B. destruct B as [[[op o] b] [I E]].
  apply andb_true_iff in E. destruct E as [E E3]. apply andb_true_iff in E. destruct E as [E1 E2].
  apply N.eqb_eq in E1, E2, E3. now subst.
Qed.

(** The hypotheses of the exact condition hold, on both sides. *)
Lemma alive_case : commands usual = mask_of advertised /\ strict usual = true /\ tolerant usual = true /\
  operational usual begin /\ sound true (packet 0x0c14 []) /\ quiet 0x0c14 [] tt <> None /\
  alive unit (command begin (packet 0x0c14 [])) /\
  sound true (packet 0x1004 [3]) /\ command begin (packet 0x1004 [3]) = Undefined unit /\
  sound true (packet 0x0c05 [1; 0]) /\ command begin (packet 0x0c05 [1; 0]) = Hci.Abort unit [].
Proof.
  split; [reflexivity |]. split; [reflexivity |]. split; [reflexivity |].
  split; [exact begin_operational |]. split; [apply packet_sound; reflexivity |]. split; [discriminate |].
  split; [eexists; eexists; vm_compute; reflexivity |].
  split; [apply packet_sound; reflexivity |]. split; [vm_compute; reflexivity |].
  split; [apply packet_sound; reflexivity |]. vm_compute. reflexivity.
Qed.

(** Inquiry is offered and executed, LE Generate DHKey is not offered. *)
Lemma mask_case : (forall o b w a, quiet o b w = Some a -> status unit a <> 1) /\
  nth 0 core_positions (0, 0, 0) = (0x0401, 0, 0) /\ shown (commands usual) 0 0 = true /\
  (exists s', command begin (packet 0x0401 [0x33; 0x8b; 0x9e; 8; 0]) = Done s' [Event (CommandStatus 0 1 0x0401)]) /\
  existsb (fun e => match e with (op, o, b) => (op =? 0x2026) && (o =? 34) && (b =? 2) end) core_positions = true /\
  shown (commands usual) 34 2 = false /\
  command begin (packet 0x2026 (repeat 0 64)) = Done begin [Event (CommandComplete 1 0x2026 [1])].
Proof.
  split; [intros o b w a [= <-]; discriminate |].
  split; [reflexivity |]. split; [vm_compute; reflexivity |].
  split; [eexists; vm_compute; reflexivity |].
  split; [vm_compute; reflexivity |]. split; [vm_compute; reflexivity |].
  vm_compute. reflexivity.
Qed.

(** Local loopback: a command, a data packet, a voice packet, and out. *)
Definition loop_in : list input := [Command (packet 0x0c03 []); Command (packet 0x1802 [1])].

Definition mirror : list input := loop_in ++ [
  Command (packet 0x0c1a [3]); AclData [0x23; 0x21; 2; 0; 7; 8]; ScoData [0x45; 0x03; 1; 9]].

Lemma mirror_runs : steps begin (log_of mirror) (last_of mirror) /\ map fst (log_of mirror) = mirror /\
  last_loopback (log_of mirror) 0 = 1 /\ sound true (packet 0x0c1a [3]) /\ ~ In (opcode (packet 0x0c1a [3])) never_looped /\
  acl_frame [0x23; 0x21; 2; 0; 7; 8] /\ sco_frame [0x45; 0x03; 1; 9] /\ no_reserved [0x45; 0x03; 1; 9] /\
  map snd (skipn 2 (log_of mirror)) =
    [[Event (LoopbackCommand (packet 0x0c1a [3]))];
     [AclToHost [0x23; 0x21; 2; 0; 7; 8]; Event (NumberOfCompletedPackets 0x123 1)];
     [ScoToHost [0x45; 0x03; 1; 9]]] /\
  kept unit (last_of mirror) ScanEnable = [0].
Proof.
  split; [apply runs_ran; vm_compute; reflexivity |].
  split; [vm_compute; reflexivity |]. split; [vm_compute; reflexivity |].
  split; [apply packet_sound; reflexivity |].
  split; [intros H; apply mem_in in H; vm_compute in H; discriminate |].
  split; [split; [reflexivity | split; [vm_compute; discriminate | reflexivity]] |].
  split; [split; [reflexivity | split; [vm_compute; discriminate | reflexivity]] |].
  split; [reflexivity |]. split; vm_compute; reflexivity.
Qed.

(** The longest commands do not fit in an event of at most 255 bytes. *)
Lemma too_long : steps begin (log_of loop_in) (last_of loop_in) /\ last_loopback (log_of loop_in) 0 = 1 /\
  let p := packet 0x2037 (repeat 0 255) in
  sound true p /\ command (last_of loop_in) p = Done (last_of loop_in) [Event (LoopbackCommand p)] /\ lenN p = 258.
Proof.
  assert (R : steps begin (log_of loop_in) (last_of loop_in)) by (apply runs_ran; vm_compute; reflexivity).
  assert (L : last_loopback (log_of loop_in) 0 = 1) by (vm_compute; reflexivity).
  split; [exact R |]. split; [exact L |].
  assert (S : sound true (packet 0x2037 (repeat 0 255))) by (apply packet_sound; reflexivity).
  split; [exact S |]. split; [| vm_compute; reflexivity].
  apply (history_loops unit quiet true usual tt _ _ _ R S); [| exact L].
  intros H. apply mem_in in H. vm_compute in H. discriminate.
Qed.

(** Leaving loopback announces connections, as entering does. *)
Lemma leave_announces : exists s', mode unit (last_of loop_in) = 1 /\ mode unit s' = 0 /\
  command (last_of loop_in) (packet 0x1802 [0]) =
  Done s' [Event (ConnectionComplete 0 0x123 1); Event (ConnectionComplete 0 0x345 0); Event (CommandComplete 1 0x1802 [0])].
Proof.
  assert (M : mode unit (last_of loop_in) = 1) by (vm_compute; reflexivity).
  assert (P : Hci.parse true (packet 0x1802 [0]) = Some (opcode (packet 0x1802 [0]), parameters (packet 0x1802 [0])))
    by (vm_compute; reflexivity).
  assert (S : supported usual 0x1802 = true) by (vm_compute; reflexivity).
  destruct (loopback_announces unit quiet true usual (last_of loop_in) _ P eq_refl S (or_introl eq_refl) eq_refl) as [s' [A B]].
  now exists s'.
Qed.

(** Values written and read back; a refused one; Reset. *)
Definition settings : list input := [
  Command (packet 0x0c03 []); Command (packet 0x0c18 [0x34; 0x12]); Command (packet 0x0c3a [2; 0x33; 0x8b; 0x9e; 0x00; 0x8b; 0x9e]);
  Command (packet 0x2024 [0x00; 0x01; 0x48; 0x01]); Command (packet 0x2024 [0xfb; 0x00; 0x90; 0x42])].

Lemma settings_run : steps begin (log_of settings) (last_of settings) /\
  writes_in_range usual DataLength (log_of settings) /\
  last_value PageTimeout (log_of settings) (fresh usual PageTimeout) = [0x34; 0x12] /\
  last_value InquiryCodes (log_of settings) (fresh usual InquiryCodes) = [2; 0x33; 0x8b; 0x9e; 0x00; 0x8b; 0x9e] /\
  last_value DataLength (log_of settings) (fresh usual DataLength) = [0xfb; 0x00; 0x90; 0x42] /\
  last_value DataLength (log_of (firstn 4 settings)) (fresh usual DataLength) = [0x1b; 0x00; 0x48; 0x01] /\
  exists s', command (last_of settings) (packet 0x2023 []) = Done s' [Event (CommandComplete 1 0x2023 [0; 0xfb; 0x00; 0x90; 0x42])].
Proof.
  split; [apply runs_ran; vm_compute; reflexivity |].
  split.
  { intros p l I E S. vm_compute in I.
    repeat (destruct I as [I | I]; [injection I as <- <-; vm_compute in E, S; try discriminate |]); [| destruct I].
    split; [vm_compute; reflexivity |]. vm_compute. reflexivity. }
  split; [vm_compute; reflexivity |]. split; [vm_compute; reflexivity |].
  split; [vm_compute; reflexivity |]. split; [vm_compute; reflexivity |].
  eexists. vm_compute. reflexivity.
Qed.

(** The hypotheses about the answer to a write are met. *)
Lemma write_case : supported usual (writer DataLength) = true /\ quiet (writer DataLength) [0xfb; 0; 0x90; 0x42] tt <> None /\
  sound true (packet (writer DataLength) [0xfb; 0; 0x90; 0x42]) /\
  in_range usual DataLength (parameters (packet (writer DataLength) [0xfb; 0; 0x90; 0x42])) /\
  allowed DataLength (parameters (packet (writer DataLength) [0xfb; 0; 0x90; 0x42])) /\
  in_range usual DataLength (parameters (packet (writer DataLength) [0xfc; 0; 0x90; 0x42])) /\
  ~ allowed DataLength (parameters (packet (writer DataLength) [0xfc; 0; 0x90; 0x42])).
Proof.
  split; [vm_compute; reflexivity |]. split; [discriminate |]. split; [apply packet_sound; reflexivity |].
  split; [split; vm_compute; reflexivity |].
  split; [vm_compute; repeat split; discriminate |].
  split; [split; vm_compute; reflexivity |].
  intros [[_ H] _]. vm_compute in H. now apply H.
Qed.

(** Write Inquiry Mode 2 succeeds and Read Inquiry Mode returns 0. *)
Lemma inquiry_mode_lost : exists s', command begin (packet 0x0c45 [2]) = Done s' [Event (CommandComplete 1 0x0c45 [0])] /\
  command s' (packet 0x0c44 []) = Done s' [Event (CommandComplete 1 0x0c44 [0; 0])].
Proof. eexists. split; vm_compute; reflexivity. Qed.

(** Reset Failed Contact Counter is advertised and fails on valid packets. *)
Lemma counter_case : supported usual 0x1402 = true /\ sound true (packet 0x1402 [1; 0]) /\
  command begin (packet 0x1402 [1; 0]) = Done begin [Event (HardwareError 0x43); InvalidPacket (packet 0x1402 [1; 0])].
Proof.
  split; [vm_compute; reflexivity |]. split; [apply packet_sound; reflexivity |]. vm_compute. reflexivity.
Qed.

(** Data for a BR/EDR link, an LE link and none. *)
Lemma routes : acl_frame [0x05; 0x20; 1; 0; 9] /\ acl_frame [0x05; 0x22; 1; 0; 9] /\ acl_frame [0x05; 0x2e; 1; 0; 9] /\
  step unit quiet true usual begin (AclData [0x05; 0x20; 1; 0; 9]) = Done begin [AclToBredr [0x05; 0x20; 1; 0; 9]] /\
  step unit quiet true usual begin (AclData [0x05; 0x22; 1; 0; 9]) = Done begin [AclToLe [0x05; 0x22; 1; 0; 9]] /\
  step unit quiet true usual begin (AclData [0x05; 0x2e; 1; 0; 9]) = Done begin [Event (NumberOfCompletedPackets 0xe05 1)].
Proof.
  split; [split; [reflexivity | split; [vm_compute; discriminate | reflexivity]] |].
  split; [split; [reflexivity | split; [vm_compute; discriminate | reflexivity]] |].
  split; [split; [reflexivity | split; [vm_compute; discriminate | reflexivity]] |].
  split; [reflexivity |]. split; reflexivity.
Qed.

(** A command left to the link manager. *)
Lemma pass_case : In (opcode (packet 0x0411 [5; 0])) for_link_manager /\ sound true (packet 0x0411 [5; 0]) /\
  command begin (packet 0x0411 [5; 0]) = Done begin [ToLinkManager (packet 0x0411 [5; 0])].
Proof.
  split; [apply mem_in; vm_compute; reflexivity |]. split; [apply packet_sound; reflexivity |].
  vm_compute. reflexivity.
Qed.

(** With the quirk, the first command gets a hardware error and no answer. *)
Lemma quirk_unanswered : let c := {|
  strict := true; commands := mask_of advertised; error_before_reset := true; has_csr := true;
  has_capabilities := true; has_apcf := true; codes := 4; name := repeat 65 248; tolerant := true |} in
  Hci.command unit quiet true c (start unit c tt) (packet 0x0c14 []) =
  Done (start unit c tt) [Event (HardwareError 0x42)].
Proof. vm_compute. reflexivity. Qed.
