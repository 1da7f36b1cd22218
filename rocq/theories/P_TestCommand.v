(** Property theorems C43 and C44: the commands of the test channel. *)
From Coq Require Import String.
From Verif Require Import Prelude Table Address PhyModel PhyModelSpec TestCommand TestCommandProofs TestCommandSpec TestCommandRequests.
Open Scope N_scope.

(** C43: exactly which commands crash and which get exactly one response. *)
Theorem C43_command_outcomes_partial :
  forall name args,
  (handle name args = Undefined <-> needs_argument name /\ args = []) /\
  (handle name args = Throws <-> bad_interval name args) /\
  (answered (handle name args) <->
     ~ (needs_argument name /\ args = []) /\ ~ bad_interval name args /\ ~ list_with_arguments name args).
Proof. exact handle_cases. Qed.
Print Assumptions C43_command_outcomes_partial.

(** C43: so some commands crash the simulator and some get no answer. *)
Theorem C43_command_always_answered_refuted :
  handle (str "del") [] = Undefined /\
  handle (str "add") [str "beacon"; str "be:ac:01:55:00:01"; str "x"] = Throws /\
  handle (str "list") [str "x"] = Ok [] [].
Proof. exact (conj eq_refl (conj eq_refl eq_refl)). Qed.
Print Assumptions C43_command_always_answered_refuted.

(** C44: an operation that names a device or a layer that does not exist changes
    nothing. *)
Theorem C44_unknown_target_no_effect :
  forall s o, reachable s ->
  (exists d, device_named o = Some d /\ ~ present s d) \/ (exists l, layer_named o = Some l /\ ~ In l (keys (layers s))) ->
  step s o = Some s.
Proof. exact unknown_no_effect. Qed.
Print Assumptions C44_unknown_target_no_effect.

(** C44: a number below 2^32 written in decimal names the device with that number. *)
Theorem C44_decimal_names_device_partial :
  forall s v, decimal s v -> (hd 0 s = 48 -> s = [48]) -> v < 2 ^ 32 -> to_id (parse_int s) = v.
Proof. exact parse_decimal. Qed.
Print Assumptions C44_decimal_names_device_partial.

(** C44: a command whose text names existing or missing objects in decimal does
    exactly what the text asks for, once, and reports success. *)
Theorem C44_command_does_what_it_says :
  forall name args effects, requests name args effects -> handle name args = Ok effects [Done].
Proof. exact request_done. Qed.
Print Assumptions C44_command_does_what_it_says.

(** C44: a larger number names another device. *)
Theorem C44_large_number_refuted :
  exists s, decimal s 4294967296 /\ handle (str "del") [s] = Ok [ETopology (RemoveDevice 0)] [Done].
Proof. exact truncated_id. Qed.
Print Assumptions C44_large_number_refuted.

(** C44: an address that cannot be read clears the address of the device. *)
Theorem C44_bad_address_refuted :
  exists s s', reachable s /\ handle (str "set_device_address") [str "0"; str "junk"] =
   Ok [ETopology (SetAddress 0 kEmpty)] [Done] /\ address_of s 0 <> Some kEmpty /\
   step s (SetAddress 0 kEmpty) = Some s' /\ address_of s' 0 = Some kEmpty.
Proof. exact bad_address_clears. Qed.
Print Assumptions C44_bad_address_refuted.
