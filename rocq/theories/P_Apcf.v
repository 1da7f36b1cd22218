(** C36: the advertising packet content filters. An [Exchange] is a command of the host
    with the status and the number of available spaces returned. [defined], [conditions],
    [expected_status] and [expected_spaces] are defined on the exchanges in ApcfSpec.v. *)
From Verif Require Import Prelude Apcf ApcfSpec ApcfProofs.
Open Scope N_scope.

(** Every command gets the status which the previous exchanges call for, and reports the
    spaces left. *)
Theorem C36_responses_exact : forall z h s c r n, sizes_ok z -> history z (Exchange c r n :: h) s ->
  r = expected_status z h c /\ match expected_spaces z c (Exchange c r n :: h) with Some m => n = m | None => True end.
Proof. exact responses. Qed.

(** The filter indices are unique, are at most as many as the capacity, and are those stored. *)
Theorem C36_indices_unique : forall z h s, sizes_ok z -> history z h s -> NoDup (defined h) /\ lenN (defined h) <= filter_list_size z /\
  NoDup (map filter_index (filters s)) /\ (forall i, In i (map filter_index (filters s)) <-> In i (defined h)).
Proof. exact unique. Qed.

(** Every condition belongs to a filter which is defined. *)
Theorem C36_conditions_owned : forall z h s k i c, sizes_ok z -> history z h s -> In (i, c) (conditions k h) -> In i (defined h).
Proof. exact owned. Qed.

(** No list of conditions exceeds its capacity. *)
Theorem C36_conditions_bounded : forall z h s k, sizes_ok z -> history z h s -> lenN (conditions k h) <= capacity z k.
Proof. exact bounded. Qed.

(** The conditions stored are those added and not removed since, the data split into a
    pattern and a mask. *)
Theorem C36_conditions_stored : forall z h s k, sizes_ok z -> history z h s -> table k s = map stored_entry (rev (conditions k h)).
Proof. exact tables. Qed.

(** Every command is answered. *)
Theorem C36_always_answered : forall z h s c, history z h s -> exists s' r n, history z (Exchange c r n :: h) s'.
Proof. exact always. Qed.

Theorem C36_reachable : sizes_ok small /\ exists s, history small
  [Exchange (DeleteParameters 6) SUCCESS 1; Exchange (LocalName ADD 7 [1; 1]) UNKNOWN_CONNECTION 1;
   Exchange (LocalName DELETE 5 [1; 2; 255; 255]) SUCCESS 1; Exchange (AdType ADD 6 1 [2] [3]) SUCCESS 0;
   Exchange (AddParameters (Filter 7 [])) MEMORY_CAPACITY_EXCEEDED 0; Exchange (AddParameters (Filter 6 [])) SUCCESS 0;
   Exchange (AddParameters (Filter 5 [])) INVALID_PARAMETERS 1; Exchange (LocalName ADD 5 [7; 255]) MEMORY_CAPACITY_EXCEEDED 0;
   Exchange (LocalName ADD 5 [1; 2; 255; 255]) SUCCESS 0; Exchange (AddParameters (Filter 5 [])) SUCCESS 1] s.
Proof. exact (conj small_ok session_history). Qed.

Print Assumptions C36_responses_exact.
Print Assumptions C36_indices_unique.
Print Assumptions C36_conditions_owned.
Print Assumptions C36_conditions_bounded.
Print Assumptions C36_conditions_stored.
Print Assumptions C36_always_answered.
