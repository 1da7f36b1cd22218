(** Property theorems C06: resolvable private addresses, for any block cipher
    with 16-byte outputs. *)
From Verif Require Import Prelude Address Rpa RpaProofs.
Open Scope N_scope.

(** Every generated address is a six-byte resolvable private address that
    matches the key that generated it, whatever the random values. *)
Theorem C06_rpa_resolves_with_its_key :
  forall aes, cipher_ok aes -> forall irk r0 r1 r2 r3,
    let a := AWT (generate_rpa aes irk r0 r1 r2 r3) RANDOM_DEVICE in
    wf_address (awt_addr a) = true /\ is_rpa a = true /\ matches_irk aes a irk = true.
Proof.
  exact (fun aes H irk r0 r1 r2 r3 =>
    conj (generated_wf aes (proj1 H) (proj2 H) irk r0 r1 r2 r3)
         (generated_matches aes (proj1 H) (proj2 H) irk r0 r1 r2 r3)).
Qed.
Print Assumptions C06_rpa_resolves_with_its_key.

(** The random part is neither all zeroes nor all ones. *)
Theorem C06_rpa_random_part :
  forall r0 r1 r2 r3,
    let p := rpa_prand r0 r1 r2 r3 in
    let v := nth 0 p 0 + 256 * nth 1 p 0 + 65536 * N.land (nth 2 p 0) 63 in
    v <> 0 /\ v <> 2 ^ 22 - 1.
Proof. exact prand_random. Qed.
Print Assumptions C06_rpa_random_part.

(** An address matches a key exactly when it is a random device address with
    top bits 01 whose low half is the cipher of its high half. *)
Theorem C06_rpa_match_exact :
  forall aes h0 h1 h2 p0 p1 p2 irk t,
    matches_irk aes (AWT [h0; h1; h2; p0; p1; p2] t) irk = true <->
    t = RANDOM_DEVICE /\ N.land p2 192 = 64 /\
    firstn 3 (aes irk ([p0; p1; p2] ++ repeat 0 13)) = [h0; h1; h2].
Proof. exact matches_exact. Qed.
Print Assumptions C06_rpa_match_exact.

(** An address that is not of the resolvable form is never resolved: it is
    returned unchanged, whatever the resolving list. *)
Theorem C06_rpa_other_addresses_untouched :
  forall aes enabled l a, is_rpa a = false ->
    (forall irk, matches_irk aes a irk = false) /\
    resolve_private_address aes enabled l a = (l, Some a).
Proof.
  exact (fun aes enabled l a H =>
    conj (fun irk => not_rpa_never_matches aes a irk H) (not_rpa_unchanged aes enabled l a H)).
Qed.
Print Assumptions C06_rpa_other_addresses_untouched.

(** With address resolution enabled a resolvable address resolves exactly when
    a key of the resolving list matches; disabled, never. *)
Theorem C06_rpa_resolution_exact :
  forall aes l a, is_rpa a = true ->
    ((exists i, snd (resolve_private_address aes true l a) = Some i) <->
     exists e, In e l /\ matches_irk aes a (peer_irk e) = true) /\
    resolve_private_address aes false l a = (l, None).
Proof.
  exact (fun aes l a H => conj (resolves_iff aes l a H) (disabled_never_resolves aes l a H)).
Qed.
Print Assumptions C06_rpa_resolution_exact.

(** Two controllers: an address generated by one for a peer is resolved by a
    list holding the generating key to the identity stored with that key,
    unless an earlier entry's key also matches. *)
Theorem C06_rpa_end_to_end :
  forall aes, cipher_ok aes -> forall l1 e l2 sender a ra r0 r1 r2 r3 sender',
    generate_for aes sender a true r0 r1 r2 r3 = (sender', Some ra) ->
    exists irk,
      (exists es, In es sender /\ irk = local_irk es /\
         peer_identity_address es = awt_addr a /\
         peer_identity_type es = to_peer_type (awt_type a)) /\
      (peer_irk e = irk ->
       (forall x, In x l1 -> matches_irk aes ra (peer_irk x) = false) ->
       snd (resolve_private_address aes true (l1 ++ e :: l2) ra)
       = Some (peer_device_address (peer_identity_address e) (peer_identity_type e))).
Proof. exact (fun aes H => end_to_end aes (proj1 H) (proj2 H)). Qed.
Print Assumptions C06_rpa_end_to_end.

(** Resolution never changes the identities and keys of the list. *)
Theorem C06_rpa_resolution_preserves_list :
  forall aes enabled l a,
    Forall2 same_identity l (fst (resolve_private_address aes enabled l a)).
Proof. exact resolve_preserves. Qed.
Print Assumptions C06_rpa_resolution_preserves_list.

Example C06_nonvacuous :
  let aes := fun k m => firstn 16 (map (fun b => (b + nth 0 k 0) mod 256) m ++ repeat 7 16) in
  let irk := [5; 6; 7] in
  let a := AWT (generate_rpa aes irk 1000 2001 3003 9) RANDOM_DEVICE in
  let e k i := {| peer_identity_type := PEER_PUBLIC; peer_identity_address := i; peer_irk := k;
                  local_irk := k; local_resolvable_address := None;
                  peer_resolvable_address := None |} in
  cipher_ok (fun _ _ => repeat 3 16) /\ is_rpa a = true /\
  snd (resolve_private_address aes true [e [9] kAny; e irk [1; 2; 3; 4; 5; 6]] a)
  = Some (AWT [1; 2; 3; 4; 5; 6] PUBLIC_DEVICE).
Proof. split; [split; intros; reflexivity|]. vm_compute. split; reflexivity. Qed.
