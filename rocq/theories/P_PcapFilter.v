(** Properties of the HCI capture filter (C10, C11, C12). *)
From Verif Require Import Prelude PcapFilter PcapFilterSpec PcapFilterProofs PcapFilterNames.
Open Scope N_scope.

(** C10: in a capture of any byte strings accepted by the filter, every packet
    keeps its length. *)
Theorem C10_filter_preserves_lengths : forall ps m outs,
  filter_all [] ps = Some (m, outs) ->
  Forall2 (fun p o => length o = length (fst p)) ps outs.
Proof. exact (fun ps m outs => filter_all_lengths ps [] m outs (Forall_nil _)). Qed.
Print Assumptions C10_filter_preserves_lengths.

(** C10: every capture of well-formed packets is accepted, and each output is
    again a packet of the same type with the same op code or event code and
    the same size field. *)
Theorem C10_filter_preserves_type : forall ps,
  Forall well_formed ps ->
  exists m outs, filter_all [] (map framed ps) = Some (m, outs) /\
  Forall2 (fun p o => exists q, o = encode q /\ idc q = idc p /\
    length o = length (encode p) /\
    firstn (header_size p) o = firstn (header_size p) (encode p)) ps outs.
Proof. exact capture_types. Qed.
Print Assumptions C10_filter_preserves_type.

(** C11: link payloads become zeros and their headers are kept. *)
Theorem C11_payload_wiped : forall m p d, well_formed p -> payload_of p = Some d ->
  filter_hci_packet m (encode p) (idc p) =
  Some (m, encode (with_payload p (repeat 0 (length d)))).
Proof. exact payload_zeroed. Qed.
Print Assumptions C11_payload_wiped.

(** C11: the whole capture is unchanged when the names in fixed size fields are
    renamed one to one, and link payloads replaced by others of the same
    length: the capture reveals no more than which names are equal. Names in
    GAP data are not covered (see [C11_gap_name_hidden_refuted]). *)
Theorem C11_capture_hides_names_partial : forall f ps ps' m outs m' outs',
  renaming f ->
  Forall2 (differ_in_user_data f) ps ps' ->
  Forall well_formed ps ->
  Forall (fun p => Forall (fun d => (length d <= 248)%nat) (gap_of p)) ps ->
  filter_all [] (map framed ps) = Some (m, outs) ->
  filter_all [] (map framed ps') = Some (m', outs') ->
  outs' = outs.
Proof. exact capture_hides_user_data. Qed.
Print Assumptions C11_capture_hides_names_partial.

(** C11, names in GAP data included: the whole capture is unchanged when names are
    renamed one to one and payloads replaced. What is missing: the last byte of a name in
    GAP data, which is not hidden (see [C11_gap_name_last_byte_survives]), and GAP data
    that is not made of structures. *)
Theorem C11_capture_hides_all_names_partial : forall f ps ps' m outs m' outs',
  injective_renaming f ->
  Forall2 (differ_everywhere f) ps ps' ->
  Forall well_formed ps ->
  filter_all [] (map framed ps) = Some (m, outs) ->
  filter_all [] (map framed ps') = Some (m', outs') ->
  outs' = outs.
Proof. exact capture_hides_all_names. Qed.
Print Assumptions C11_capture_hides_all_names_partial.

Theorem C11_differing_captures_exist : exists f p p', injective_renaming f /\ p <> p' /\
  well_formed p /\ differ_everywhere f p p' /\
  p = LeSetAdvertisingData false (ad_bytes {| ad_type := 9; ad_data := [65; 66] |}) /\
  p' = LeSetAdvertisingData false (ad_bytes {| ad_type := 9; ad_data := [67; 66] |}).
Proof. exact (ex_intro _ swap (let '(ex_intro _ p (ex_intro _ p' H)) := hidden_witness in
  ex_intro _ p (ex_intro _ p' (conj swap_renaming H)))). Qed.
Print Assumptions C11_differing_captures_exist.

(** C11: in GAP data made of advertising structures followed by padding, every
    structure that is not a name is unchanged. Of a name structure only the
    size and the length byte are known to be kept. *)
Theorem C11_gap_other_structures_kept_partial : forall ads k m outs_map out,
  names_ok m -> Forall ad_ok ads ->
  filter_gap m (flat_map ad_bytes ads ++ repeat 0 k) = (outs_map, out) ->
  exists outs, out = concat outs ++ repeat 0 k /\
    Forall2 (fun a o =>
      if is_name a then
        length o = length (ad_bytes a) /\ hd 0 o = hd 0 (ad_bytes a) /\
        last o 0 = last (ad_bytes a) 0
      else o = ad_bytes a) ads outs.
Proof. exact gap_structures. Qed.
Print Assumptions C11_gap_other_structures_kept_partial.

(** C11 is false for GAP data: the last byte of every non-empty name survives,
    whatever was captured before ... *)
Theorem C11_gap_name_last_byte_survives : forall m ty n x m' out,
  (ty = 8 \/ ty = 9) -> (length n <= 253)%nat ->
  filter_gap m (ad_bytes {| ad_type := ty; ad_data := n ++ [x] |}) = (m', out) ->
  last out 0 = x.
Proof. exact gap_name_leaks. Qed.
Print Assumptions C11_gap_name_last_byte_survives.

(** ... so two captures differing only in a name can be told apart, ... *)
Theorem C11_gap_name_hidden_refuted : exists p p' m m' out out',
  well_formed p /\ well_formed p' /\
  p = LeSetAdvertisingData false (ad_bytes {| ad_type := 9; ad_data := [65; 66] |}) /\
  p' = LeSetAdvertisingData false (ad_bytes {| ad_type := 9; ad_data := [65; 67] |}) /\
  filter_all [] [framed p] = Some (m, [out]) /\
  filter_all [] [framed p'] = Some (m', [out']) /\ out <> out'.
Proof. exact gap_leak_witness. Qed.
Print Assumptions C11_gap_name_hidden_refuted.

(** ... and the data type byte, which is not part of the name, is changed. *)
Theorem C11_gap_type_kept_refuted : exists a m out,
  ad_ok a /\ is_name a = true /\ filter_gap [] (ad_bytes a) = (m, out) /\
  nth 1 out 0 <> ad_type a.
Proof. exact gap_type_witness. Qed.
Print Assumptions C11_gap_type_kept_refuted.

(** C12: in any capture, packets carrying the same name in a fixed size field
    get the same pseudonym, nothing else in them changes. *)
Theorem C12_same_name_same_pseudonym_everywhere : forall ps m outs j k p q n,
  filter_all [] (map framed ps) = Some (m, outs) ->
  Forall well_formed ps ->
  nth_error ps j = Some p -> nth_error ps k = Some q ->
  name_of p = Some n -> name_of q = Some n ->
  exists w, length w = length n /\
    nth_error outs j = Some (encode (with_name p w)) /\
    nth_error outs k = Some (encode (with_name q w)).
Proof. exact same_name_same_pseudonym. Qed.
Print Assumptions C12_same_name_same_pseudonym_everywhere.

(** C12: in any capture the same packet is always filtered to the same bytes,
    whatever was captured in between. *)
Theorem C12_same_packet_same_output : forall ps m outs j k b i oj ok,
  filter_all [] ps = Some (m, outs) ->
  nth_error ps j = Some (b, i) -> nth_error ps k = Some (b, i) ->
  nth_error outs j = Some oj -> nth_error outs k = Some ok -> oj = ok.
Proof. exact filter_same_packet. Qed.
Print Assumptions C12_same_packet_same_output.

(** C12: the output for a packet does not depend on later packets. *)
Theorem C12_output_ignores_later_packets : forall ps qs qs' m outs m' outs',
  filter_all [] (ps ++ qs) = Some (m, outs) ->
  filter_all [] (ps ++ qs') = Some (m', outs') ->
  firstn (length ps) outs = firstn (length ps) outs'.
Proof. exact pseudonyms_ignore_later. Qed.
Print Assumptions C12_output_ignores_later_packets.

(** C12 is false across field kinds: one name announced in GAP data as the
    shortened and as the complete local name gets two pseudonyms. *)
Theorem C12_one_name_one_pseudonym_refuted : exists name m1 o1 m2 o2,
  filter_gap [] (ad_bytes {| ad_type := 8; ad_data := name |}) = (m1, o1) /\
  filter_gap m1 (ad_bytes {| ad_type := 9; ad_data := name |}) = (m2, o2) /\
  skipn 1 o1 <> skipn 1 o2 /\ length name = 12%nat.
Proof. exact two_pseudonyms_witness. Qed.
Print Assumptions C12_one_name_one_pseudonym_refuted.
