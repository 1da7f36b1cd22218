(** Property C101: the search for BR/EDR devices. *)
From Coq Require Import Permutation.
From Verif Require Import Prelude Table Sco Bredr BredrBase BredrSpec BredrPairSpec BredrInquirySpec BredrInquiry BredrFind BredrWitness BredrPairWitness BredrInquiryWitness.
Open Scope N_scope.

Theorem C101_statuses : forall order cfg, (forall t, Permutation (order t) t) -> forall h s now o s' st out, history order cfg h s -> timely h -> step order cfg now s o = Ok (s', st, out) ->
  match o with
  | Command (Inquire _ len num) =>
      st = Some (if (0xff <? num) || (len <? 1) || (0x30 <? len) then INVALID_PARAMETERS else match searching h with Some _ => DISALLOWED | None => SUCCESS end)
  | Command InquiryCancel => st = Some (match searching h with Some _ => SUCCESS | None => DISALLOWED end)
  | _ => True
  end.
Proof. exact inquiry_statuses. Qed.
Print Assumptions C101_statuses.

Theorem C101_completed_in_time : forall order cfg, (forall t, Permutation (order t) t) -> forall h s now o s' st out, history order cfg h s -> timely (Entry now o st out :: h) -> step order cfg now s o = Ok (s', st, out) ->
  filter is_complete out =
    match o, searching h with
    | Tick, Some f => if (ends_at f <=? now) && unmasked s 0x01 then [Event (InquiryComplete SUCCESS)] else []
    | _, _ => []
    end.
Proof. exact completes_once. Qed.
Print Assumptions C101_completed_in_time.

Theorem C101_accounted : forall order cfg, (forall t, Permutation (order t) t) -> forall h s, history order cfg h s -> timely h -> Forall keeps_complete h ->
  unmasked s 0x01 = true /\ sum starts h = (sum finishes h + stopped h + in_progress h)%nat.
Proof. exact inquiries_accounted. Qed.
Print Assumptions C101_accounted.

Theorem C101_packets_sent : forall order cfg, (forall t, Permutation (order t) t) -> forall h s, history order cfg h s -> timely h ->
  inquiries_sent h ++ filter is_inquiry (air_of s) = map (probe_packet (address s)) (probes h).
Proof. exact probes_sent. Qed.
Print Assumptions C101_packets_sent.

Theorem C101_packets_in_time : forall h p, In p (probes h) ->
  exists e len num, In e h /\ what e = Command (Inquire (asked_code p) len num) /\ succeeded (status_of e) = true /\
    at_time e + 2 * second <= asked_at p < at_time e + len * 1280000.
Proof. exact probe_in_time. Qed.
Print Assumptions C101_packets_in_time.

Theorem C101_packets_spaced : forall h, timely h -> spaced (probes h).
Proof. exact probes_spaced. Qed.
Print Assumptions C101_packets_spaced.

Theorem C101_packets_arrive : forall order1 order2 cfg1 cfg2 a b,
  (forall t, Permutation (order1 t) t) -> (forall t, Permutation (order2 t) t) ->
  forall hl hr w, reaches order1 order2 cfg1 cfg2 a b hl hr w ->
  map snd (inquiries_heard a hr) ++ still_asked b w = map (probe_packet a) (probes hl).
Proof. exact inquiries_arrive. Qed.
Print Assumptions C101_packets_arrive.

Theorem C101_results : forall order1 order2 cfg1 cfg2 a b,
  (forall t, Permutation (order1 t) t) -> (forall t, Permutation (order2 t) t) ->
  forall visible codes cls data hl hr w0 nl nr w,
  meanwhile order1 order2 cfg1 cfg2 a b (in_sight visible codes cls data) hl hr w0 nl nr w ->
  results b nl ++ to_be_told a b w = to_be_told a b w0 ++ flat_map (answer b visible codes cls data) (inquiries_heard a nr).
Proof. exact results_accounted. Qed.
Print Assumptions C101_results.

Theorem C101_found_exactly : forall order1 order2 cfg1 cfg2 a b,
  (forall t, Permutation (order1 t) t) -> (forall t, Permutation (order2 t) t) ->
  forall visible codes cls data hl hr w0 nl nr w,
  meanwhile order1 order2 cfg1 cfg2 a b (in_sight visible codes cls data) hl hr w0 nl nr w ->
  still_asked b w0 = [] -> to_be_told a b w0 = [] -> still_asked b w = [] -> to_be_told a b w = [] ->
  map (probe_packet a) (probes (nl ++ hl)) = map (probe_packet a) (probes hl) ++ map snd (inquiries_heard a nr) /\
  results b nl = flat_map (answer b visible codes cls data) (inquiries_heard a nr).
Proof. exact found_exactly. Qed.
Print Assumptions C101_found_exactly.

Theorem C101_witness : exists hl hr w0 nl nr w,
  meanwhile same_order same_order some_config your_config me you (in_sight true [0x33] 0x5a (repeat 0 240)) hl hr w0 nl nr w /\
  still_asked you w0 = [] /\ to_be_told me you w0 = [] /\ still_asked you w = [] /\ to_be_told me you w = [] /\
  map asked_at (probes (nl ++ hl)) = [2000010; 4100000] /\
  results you nl = [InquiryResult 1 you 0 0x5a 0 0xc4 []; InquiryResult 1 you 0 0x5a 0 0xd0 []] /\
  sum starts nl = 1%nat /\ sum finishes nl = 1%nat /\ Forall keeps_complete (nl ++ hl) /\
  flat_map (fun e => match what e with Command (Inquire _ _ _) | Command InquiryCancel => match status_of e with Some st => [st] | None => [] end | _ => [] end) (rev nl) = [SUCCESS; DISALLOWED; DISALLOWED].
Proof. exact inquiry_witness. Qed.
Print Assumptions C101_witness.

Theorem C101_short_inquiry : forall h, (forall e lap len num, In e h -> what e = Command (Inquire lap len num) -> len <= 1) -> probes h = [].
Proof. exact short_inquiry. Qed.
Print Assumptions C101_short_inquiry.

Theorem C101_short_inquiry_refuted : exists hl hr w0 nl nr w,
  meanwhile same_order same_order some_config your_config me you (in_sight true [0x33] 0x5a (repeat 0 240)) hl hr w0 nl nr w /\
  still_asked you w = [] /\ to_be_told me you w = [] /\ sum starts nl = 1%nat /\ sum finishes nl = 1%nat /\ results you nl = [] /\
  exists e, In e nl /\ what e = Command (Inquire 0x33 1 0).
Proof. exact short_misses. Qed.
Print Assumptions C101_short_inquiry_refuted.

Theorem C101_responses_limit_refuted : exists hl hr w, reaches same_order same_order some_config your_config me you hl hr w /\
  (forall e lap len num, In e hl -> what e = Command (Inquire lap len num) -> num = 1) /\ sum starts hl = 1%nat /\
  List.length (results you hl) = 2%nat.
Proof. exact too_many. Qed.
Print Assumptions C101_responses_limit_refuted.

Theorem C101_result_after_cancel_refuted : exists e hl hr w, reaches same_order same_order some_config your_config me you (e :: hl) hr w /\
  searching hl = None /\ results_in you (sent e) <> [].
Proof. exact too_late. Qed.
Print Assumptions C101_result_after_cancel_refuted.
