(** Concrete cases for the theorems on the whole mask of supported commands. *)
From Verif Require Import Prelude HciTables Hci HciSpec HciProofs HciHistory HciWitness HciMaskSpec.
Open Scope N_scope.

Definition lenient : config := {|
  strict := false; commands := mask_of advertised; error_before_reset := false; has_csr := true;
  has_capabilities := true; has_apcf := true; codes := 4; name := repeat 65 248; tolerant := true |}.
Definition silent : config := {|
  strict := true; commands := repeat 0 64; error_before_reset := false; has_csr := true;
  has_capabilities := true; has_apcf := true; codes := 4; name := repeat 65 248; tolerant := true |}.

Lemma in_positions op octet bit :
  existsb (fun e => match e with (o, x, y) => (o =? op) && (x =? octet) && (y =? bit) end) all_positions = true ->
  In (op, octet, bit) all_positions.
Proof.
  intro H. apply existsb_exists in H as ([[o x] y] & I & E). apply andb_true_iff in E as [E E3].
  apply andb_true_iff in E as [E1 E2]. apply N.eqb_eq in E1, E2, E3. now subst.
Qed.
Lemma without_position op : existsb (fun e => fst (fst e) =? op) all_positions = false -> ~ has_position op.
Proof.
  intros H (octet & bit & I). rewrite (proj2 (existsb_exists _ _)) in H; [discriminate|].
  exists (op, octet, bit). split; [exact I|]. apply N.eqb_refl.
Qed.

(** A Channel Sounding command with its bit set, and with all the bits clear; a command
    without a position *)
Lemma masks_case : In (0x2089, 20, 5) all_positions
  /\ operational usual (start unit usual tt) /\ operational silent (start unit silent tt)
  /\ sound true (packet 0x2089 []) /\ sound true (packet 0x2200 [])
  /\ shown (commands usual) 20 5 = true /\ shown (commands silent) 20 5 = false
  /\ (exists s' r, command unit quiet true usual (start unit usual tt) (packet 0x2089 []) =
        Done unit s' [Event (CommandComplete 1 0x2089 (0 :: r))])
  /\ command unit quiet true silent (start unit silent tt) (packet 0x2089 []) =
        Done unit (start unit silent tt) [Event (CommandComplete 1 0x2089 [1])]
  /\ opcode (packet 0x2200 []) <> 0x1002 /\ ~ vendor (opcode (packet 0x2200 [])) /\ ~ has_position (opcode (packet 0x2200 [])).
Proof.
  split; [apply in_positions; vm_compute; reflexivity|].
  split; [split; [discriminate|now left]|]. split; [split; [discriminate|now left]|].
  split; [now apply packet_sound|]. split; [now apply packet_sound|].
  split; [vm_compute; reflexivity|]. split; [vm_compute; reflexivity|].
  split; [do 2 eexists; vm_compute; reflexivity|]. split; [vm_compute; reflexivity|].
  split; [vm_compute; discriminate|]. split; [vm_compute; discriminate|].
  apply without_position. vm_compute. reflexivity.
Qed.

(** Outside of strict mode a command that is offered may be unknown *)
Lemma offered_unknown : In (0x0c08, 6, 1) all_positions /\ operational lenient (start unit lenient tt)
  /\ sound true (packet 0x0c08 [1; 0]) /\ shown (commands lenient) 6 1 = true
  /\ command unit quiet true lenient (start unit lenient tt) (packet 0x0c08 [1; 0]) =
       Done unit (start unit lenient tt) [Event (CommandComplete 1 0x0c08 [1])].
Proof.
  split; [apply in_positions; vm_compute; reflexivity|]. split; [split; [discriminate|now left]|].
  split; [now apply packet_sound|]. split; vm_compute; reflexivity.
Qed.
