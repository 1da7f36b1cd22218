(** Property C100: synchronous connections between two BR/EDR controllers. *)
From Coq Require Import Permutation.
From Verif Require Import Prelude Table Sco Bredr BredrBase BredrSpec BredrPairSpec BredrSyncSpec BredrCalls BredrVoice BredrWitness BredrPairWitness BredrSyncWitness.
Open Scope N_scope.

Theorem C100_same_parameters_partial : forall order1 order2 cfg1 cfg2 a b,
  (forall t, Permutation (order1 t) t) -> (forall t, Permutation (order2 t) t) ->
  forall k k' hl hr w0 nl nr w, hung_up_both a b w0 ->
  dialling order1 order2 cfg1 cfg2 a b k k' hl hr w0 nl nr w ->
  forall l l', in_call b l (left w) -> in_call a l' (right w) -> l = l'.
Proof. exact same_call. Qed.
Print Assumptions C100_same_parameters_partial.

Theorem C100_no_half_open_partial : forall order1 order2 cfg1 cfg2 a b,
  (forall t, Permutation (order1 t) t) -> (forall t, Permutation (order2 t) t) ->
  forall k k' hl hr w0 nl nr w, hung_up_both a b w0 ->
  dialling order1 order2 cfg1 cfg2 a b k k' hl hr w0 nl nr w ->
  sync_quiet a b w -> ~ called b (left w) -> ~ called a (right w) ->
  (calls b (left w) = [] /\ calls a (right w) = []) \/ exists l, in_call b l (left w) /\ in_call a l (right w).
Proof. exact settled_calls. Qed.
Print Assumptions C100_no_half_open_partial.

Theorem C100_accepted_then_open_partial : forall order1 order2 cfg1 cfg2 a b,
  (forall t, Permutation (order1 t) t) -> (forall t, Permutation (order2 t) t) ->
  forall k k' hl hr w0 nl nr w, hung_up_both a b w0 ->
  dialling order1 order2 cfg1 cfg2 a b k k' hl hr w0 nl nr w ->
  forall l, in_call b l (left w) ->
  in_call a l (right w) \/ (calling a (right w) /\ exists p, In p (way_right b w) /\ content p = ScoResponse SUCCESS l).
Proof. exact one_sided_call. Qed.
Print Assumptions C100_accepted_then_open_partial.

Theorem C100_negotiated_partial : forall order1 order2 cfg1 cfg2 a b,
  (forall t, Permutation (order1 t) t) -> (forall t, Permutation (order2 t) t) ->
  forall k k' hl hr w0 nl nr w, hung_up_both a b w0 ->
  dialling order1 order2 cfg1 cfg2 a b k k' hl hr w0 nl nr w ->
  forall l, in_call b l (left w) -> in_call a l (right w) -> exists h c h' c' p,
  In (h, c) (calls b (left w)) /\ In (h', c') (calls a (right w)) /\ sco_params c = sco_params c' /\
  negotiate (if is_extended (sco_params c) then SENT_ESCO_CONNECTION_REQUEST else SENT_SCO_CONNECTION_REQUEST) (sco_params c) p = Some l.
Proof. exact call_agreed. Qed.
Print Assumptions C100_negotiated_partial.

Theorem C100_waits_for_the_host_only_partial : forall order1 order2 cfg1 cfg2 a b,
  (forall t, Permutation (order1 t) t) -> (forall t, Permutation (order2 t) t) ->
  forall k k' hl hr w0 nl nr w, hung_up_both a b w0 ->
  dialling order1 order2 cfg1 cfg2 a b k k' hl hr w0 nl nr w ->
  sync_quiet a b w -> calling b (left w) -> called a (right w).
Proof. exact waits_for_host. Qed.
Print Assumptions C100_waits_for_the_host_only_partial.

Theorem C100_caller_waits_partial : forall order1 order2 cfg1 cfg2 a b,
  (forall t, Permutation (order1 t) t) -> (forall t, Permutation (order2 t) t) ->
  forall k k' hl hr w0 nl nr w, hung_up_both a b w0 ->
  dialling order1 order2 cfg1 cfg2 a b k k' hl hr w0 nl nr w ->
  called a (right w) -> calling b (left w) /\ sync_quiet a b w.
Proof. exact caller_waits. Qed.
Print Assumptions C100_caller_waits_partial.

Theorem C100_answered_once_partial : forall order1 order2 cfg1 cfg2 a b,
  (forall t, Permutation (order1 t) t) -> (forall t, Permutation (order2 t) t) ->
  forall k k' hl hr w0 nl nr w, hung_up_both a b w0 -> calls_to_tell b (left w0) = [] ->
  dialling order1 order2 cfg1 cfg2 a b k k' hl hr w0 nl nr w ->
  (List.length (calls_told b nl) + List.length (calls_to_tell b (left w)) + undecided b (left w) = call_commands k nl + call_requests b nl)%nat /\
  (successful (calls_told b nl) + successful (calls_to_tell b (left w)) = open_calls b (left w))%nat.
Proof. exact calls_accounted. Qed.
Print Assumptions C100_answered_once_partial.

Theorem C100_voice : forall order1 order2 cfg1 cfg2 a b,
  (forall t, Permutation (order1 t) t) -> (forall t, Permutation (order2 t) t) ->
  forall h h' hl hr w0 nl nr w, meanwhile order1 order2 cfg1 cfg2 a b (call_steady a b h h') hl hr w0 nl nr w ->
  (forall p, In p (way_right b w0) -> voice_of p = []) ->
  voice_heard h' nr ++ flat_map voice_of (way_right b w) = voice_sent h nl.
Proof. exact voice_delivered. Qed.
Print Assumptions C100_voice.

Theorem C100_symmetric : forall order1 order2 cfg1 cfg2 a b k k' hl hr w0 nl nr w, dialling order1 order2 cfg1 cfg2 a b k k' hl hr w0 nl nr w ->
  dialling order2 order1 cfg2 cfg1 b a k' k hr hl (flip w0) nr nl (flip w).
Proof. exact dialling_flip. Qed.
Print Assumptions C100_symmetric.

Theorem C100_witness : exists hl hr w0 nl nr w,
  dialling same_order same_order some_config your_config me you 0 0 hl hr w0 nl nr w /\ hung_up_both me you w0 /\ calls_to_tell you (left w0) = [] /\
  sync_quiet me you w /\ ~ called you (left w) /\ ~ called me (right w) /\ in_call you some_link (left w) /\ in_call me some_link (right w) /\
  calls_told you nl = [SYNCHRONOUS_LIMIT; 0x0d; SUCCESS] /\ call_commands 0 nl = 3%nat /\
  calls_told me nr = [SYNCHRONOUS_LIMIT; 0x0d; SUCCESS] /\ call_commands 0 nr = 1%nat /\ call_requests me nr = 2%nat.
Proof. exact calls_witness. Qed.
Print Assumptions C100_witness.

Theorem C100_voice_witness : exists hl hr w0 nl nr w, meanwhile same_order same_order some_config your_config me you (call_steady me you 258 258) hl hr w0 nl nr w /\
  (forall p, In p (way_right you w0) -> voice_of p = []) /\ voice_heard 258 nr = [[1; 2; 3]] /\
  flat_map voice_of (way_right you w) = [[4; 5]; [7]] /\ voice_sent 258 nl = [[1; 2; 3]; [4; 5]; [7]].
Proof. exact voice_witness. Qed.
Print Assumptions C100_voice_witness.

Theorem C100_half_open_refuted : exists hl hr w, reaches same_order same_order some_config your_config me you hl hr w /\ sync_steady me you 0 0 w /\ sync_quiet me you w /\
  ~ called you (left w) /\ ~ called me (right w) /\ calls you (left w) = [] /\ in_call me some_link (right w) /\
  call_commands 0 hl = 4%nat /\ List.length (calls_told you hl) = 3%nat /\ calls_to_tell you (left w) = [].
Proof. exact half_open. Qed.
Print Assumptions C100_half_open_refuted.

Theorem C100_consent_refuted : exists hl hr w0 nl nr w, meanwhile same_order same_order some_config your_config me you (sync_steady me you 0 0) hl hr w0 nl nr w /\ hung_up_both me you w0 /\
  (forall e, In e nr -> is_command e = false) /\ in_call me some_link (right w) /\ calls_told me nr = [SUCCESS].
Proof. exact not_asked. Qed.
Print Assumptions C100_consent_refuted.

Theorem C100_outcome_refuted : exists hl hr w0 nl nr w, meanwhile same_order same_order some_config your_config me you (fun _ => True) hl hr w0 nl nr w /\ hung_up_both me you w0 /\ calls_to_tell you (left w0) = [] /\
  call_commands 0 nl = 1%nat /\ calls_told you nl = [] /\ calls_to_tell you (left w) = [] /\ calls you (left w) = [].
Proof. exact no_outcome. Qed.
Print Assumptions C100_outcome_refuted.

Theorem C100_second_call_refuted : exists hl hr w e, reaches same_order same_order some_config your_config me you hl (e :: hr) w /\ what e = Command (AcceptSync me other_params) /\
  called me (right w) /\ status_of e = Some DISALLOWED /\ flat_map (fun x => sent x) (firstn 1 hr) = [Event (ConnectionRequest me 0 LINK_ESCO)].
Proof. exact answer_refused. Qed.
Print Assumptions C100_second_call_refuted.
