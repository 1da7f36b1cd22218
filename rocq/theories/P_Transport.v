(** Property C103: a host at the other end of a socket. *)
From Verif Require Import Prelude H4 H4Spec Transport TransportSpec TransportProofs TransportWitness.
Open Scope N_scope.

Theorem C103_arrives_in_order_partial : forall (W : Type) handle work shut gives takes stale (w : W) l tail ps, parses (written l ++ tail) ps -> forallb from_host ps = true -> ~ In (Breaks OtherError) l ->
  exists d out n, steps W handle work shut gives takes stale (new_device W w) l = Ok (d, out) /\ handed out = map deliver (firstn n ps).
Proof. exact arrives_in_order. Qed.
Print Assumptions C103_arrives_in_order_partial.

Theorem C103_arrives_all_partial : forall (W : Type) handle work shut gives takes stale (w : W) l s part rest k ps, parses s ps -> forallb from_host ps = true -> wf_packet k = true -> encode k = part ++ rest -> rest <> [] ->
  from_host k = true -> written l = s ++ part -> existsb breaks l = false ->
  exists d out, steps W handle work shut gives takes stale (new_device W w) (l ++ [Tick]) = Ok (d, out) /\ handed out = map deliver ps.
Proof. exact arrives_all. Qed.
Print Assumptions C103_arrives_all_partial.

Theorem C103_any_bytes_partial : forall (W : Type) handle work shut gives takes stale (w : W) l, forallb is_byte (written l) = true ->
  match steps W handle work shut gives takes stale (new_device W w) l with
  | Ok (d, out) => exists s rest ps, written l = s ++ rest /\ parses s ps /\ handed out = map deliver ps /\ forallb from_host ps = true
  | Abort => In (Breaks OtherError) l \/ exists s rest ps, written l = s ++ rest /\ parses s ps /\ forallb from_host ps = false
  | _ => False
  end.
Proof. exact any_bytes. Qed.
Print Assumptions C103_any_bytes_partial.

Theorem C103_any_event_aborts_refuted : forall (W : Type) handle work shut gives takes stale (w : W) l s rest ps, existsb breaks l = false -> written l = s ++ rest -> parses s ps -> forallb from_host ps = false ->
  steps W handle work shut gives takes stale (new_device W w) (l ++ [Tick]) = Abort.
Proof. exact aborts_on_event. Qed.
Print Assumptions C103_any_event_aborts_refuted.

Theorem C103_nothing_dropped : forall (W : Type) handle work shut gives takes stale (w : W) l d out, existsb hangs l = false -> steps W handle work shut gives takes stale (new_device W w) l = Ok (d, out) ->
  opened W d = true /\ dropped out = [] /\ removals out = 0%nat.
Proof. exact nothing_dropped. Qed.
Print Assumptions C103_nothing_dropped.

Theorem C103_host_receives_partial : forall (W : Type) handle work shut gives takes stale, spacious takes -> forall (w : W) l d out ps,
  steps W handle work shut gives takes stale (new_device W w) l = Ok (d, out) -> forallb wf_packet ps = true ->
  offered out = map (fun k => (indicator k, body k)) ps -> parses (received out) ps.
Proof. exact host_receives. Qed.
Print Assumptions C103_host_receives_partial.

Theorem C103_removed_once : forall (W : Type) handle work shut gives takes stale (w : W) l d out, steps W handle work shut gives takes stale (new_device W w) l = Ok (d, out) ->
  (removals out <= 1)%nat /\ (removals out = 1%nat -> existsb hangs l = true).
Proof. exact removed_once. Qed.
Print Assumptions C103_removed_once.

Theorem C103_closes : forall (W : Type) handle work shut gives takes stale (w : W) l d out, existsb hangs l = true -> steps W handle work shut gives takes stale (new_device W w) (l ++ [Tick; RunTask]) = Ok (d, out) ->
  opened W d = false /\ removals out = 1%nat.
Proof. exact closes. Qed.
Print Assumptions C103_closes.

Theorem C103_closed_quiet : forall (W : Type) handle work shut gives takes stale l d d' out, opened W d = false -> steps W handle work shut gives takes stale d l = Ok (d', out) ->
  opened W d' = false /\ handed out = [] /\ offered out = [] /\ received out = [].
Proof. exact closed_quiet. Qed.
Print Assumptions C103_closed_quiet.

Theorem C103_pieces_witness : let l := [HostWrites [1; 3; 12]; Tick; HostWrites [0; 2; 1; 32; 1; 0; 7; 1; 3]; Tick; HostWrites [12]] in
  exists d out,
  written l = (encode a_command ++ encode (Acl 1 32 [7])) ++ [1; 3; 12] /\ parses (encode a_command ++ encode (Acl 1 32 [7])) [a_command; Acl 1 32 [7]] /\
  steps nat answers idle idle twos takes_all fresh (new_device nat 0%nat) (l ++ [Tick]) = Ok (d, out) /\ handed out = map deliver [a_command; Acl 1 32 [7]] /\
  offered out = map of_packet [an_answer] /\ received out = encode an_answer /\ opened nat d = true.
Proof. exact pieces_witness. Qed.
Print Assumptions C103_pieces_witness.

Theorem C103_spacious_witness : spacious takes_all.
Proof. exact takes_all_spacious. Qed.
Print Assumptions C103_spacious_witness.

Theorem C103_closing_witness : exists d out,
  steps nat answers idle idle twos takes_all fresh (new_device nat 0%nat) [HostWrites (encode a_command); Tick; HostCloses; Tick; Tick; RunTask; Tick] = Ok (d, out) /\
  opened nat d = false /\ handed out = [deliver a_command] /\ removals out = 1%nat.
Proof. exact closing_witness. Qed.
Print Assumptions C103_closing_witness.

Theorem C103_event_aborts_refuted : forall (W : Type) handle work shut gives takes stale (w : W) c q, lenN q <? 256 = true ->
  steps W handle work shut gives takes stale (new_device W w) [HostWrites (encode (Event c q)); Tick] = Abort.
Proof. exact event_aborts. Qed.
Print Assumptions C103_event_aborts_refuted.

Theorem C103_error_aborts_refuted : forall (W : Type) handle work shut gives takes stale (w : W),
  steps W handle work shut gives takes stale (new_device W w) [Breaks OtherError; Tick] = Abort.
Proof. exact error_aborts. Qed.
Print Assumptions C103_error_aborts_refuted.

Theorem C103_refused_write_refuted : exists d out k rest,
  steps nat answers talks idle twos refuses_first fresh (new_device nat 0%nat) [Tick] = Ok (d, out) /\ offered out = [of_packet some_data] /\
  received out = encode k ++ rest /\ wf_packet k = true /\ ~ In (of_packet k) (offered out).
Proof. exact refused_write. Qed.
Print Assumptions C103_refused_write_refuted.

Theorem C103_short_write_refuted : exists d out k rest,
  steps nat answers talks idle twos short_first fresh (new_device nat 0%nat) [Tick; Tick] = Ok (d, out) /\ offered out = [of_packet some_data; of_packet some_data] /\
  received out = encode k ++ rest /\ wf_packet k = true /\ ~ In (of_packet k) (offered out).
Proof. exact short_write. Qed.
Print Assumptions C103_short_write_refuted.

Theorem C103_last_answer_refuted : let l := [HostWrites (encode a_command); HostCloses; Tick] in exists d out d' out',
  steps nat answers idle idle twos takes_all fresh (new_device nat 0%nat) l = Ok (d, out) /\
  steps nat answers idle idle twos takes_all old_errno (new_device nat 0%nat) l = Ok (d', out') /\
  handed out = [deliver a_command] /\ handed out' = [deliver a_command] /\
  received out = [] /\ dropped out = [of_packet an_answer] /\ received out' = encode an_answer.
Proof. exact last_answer. Qed.
Print Assumptions C103_last_answer_refuted.
