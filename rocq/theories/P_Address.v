(** Property theorems C05: address text form. *)
From Verif Require Import Prelude Address AddressSpec AddressProofs.
Open Scope N_scope.

(** Printing then parsing is the identity on every address. *)
Theorem C05_address_roundtrip :
  forall a, wf_address a = true -> from_string (to_string a) = Some a.
Proof. exact roundtrip. Qed.
Print Assumptions C05_address_roundtrip.

(** The printed text is of the documented form, hence distinct addresses have
    distinct texts. *)
Theorem C05_address_printed_form :
  forall a, wf_address a = true -> documented (to_string a) a.
Proof. exact to_string_documented. Qed.
Print Assumptions C05_address_printed_form.

Theorem C05_address_text_injective :
  forall a b, wf_address a = true -> wf_address b = true ->
    to_string a = to_string b -> a = b.
Proof. exact to_string_inj. Qed.
Print Assumptions C05_address_text_injective.

(** Every documented text, in upper or lower case, is accepted with its value,
    and on the documented alphabet nothing else is. *)
Theorem C05_address_documented_accepted :
  forall s a, documented s a -> from_string s = Some a.
Proof. exact documented_accepted. Qed.
Print Assumptions C05_address_documented_accepted.

Theorem C05_address_alphabet_exact :
  forall s a, (forall c, In c s -> c = 58 \/ exists d, hex_digit c d) ->
    (from_string s = Some a <-> documented s a).
Proof. exact alphabet_exact. Qed.
Print Assumptions C05_address_alphabet_exact.

(** Exact description of the accepted strings. *)
Theorem C05_address_accepted_exact :
  forall s a, from_string s = Some a <-> six_tokens loose_pair s a.
Proof. exact from_string_spec. Qed.
Print Assumptions C05_address_accepted_exact.

Theorem C05_address_parsed_wf :
  forall s a, from_string s = Some a -> wf_address a = true.
Proof. exact from_string_wf. Qed.
Print Assumptions C05_address_parsed_wf.

(** Finding: the text " 1:+1:-1:00:00:00" is accepted although it is not of
    the documented form. *)
Theorem C05_address_only_documented_refuted :
  exists s a, from_string s = Some a /\ ~ (exists a', documented s a').
Proof. exact loose_witness. Qed.
Print Assumptions C05_address_only_documented_refuted.

(** Finding: the two-argument form overwrites |to| when the text is invalid,
    whereas address.h:77-80 promises to leave it unmodified. *)
Theorem C05_address_failed_parse_preserves_refuted :
  exists s to, fst (from_string_into s to) = false /\ snd (from_string_into s to) <> to.
Proof. exact overwrite_witness. Qed.
Print Assumptions C05_address_failed_parse_preserves_refuted.

Theorem C05_address_packet_roundtrip :
  forall a rest, wf_address a = true -> parse (serialize a [] ++ rest) = Some (a, rest).
Proof. exact parse_serialize. Qed.
Print Assumptions C05_address_packet_roundtrip.

Example C05_nonvacuous :
  wf_address [1; 2; 171; 205; 239; 0] = true /\
  to_string [1; 2; 171; 205; 239; 0]
  = [48;48;58;101;102;58;99;100;58;97;98;58;48;50;58;48;49] /\
  from_string [48;48;58;69;70;58;99;100;58;97;66;58;48;50;58;48;49]
  = Some [1; 2; 171; 205; 239; 0].
Proof. vm_compute. repeat split. Qed.
