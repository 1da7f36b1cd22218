(** Model of resolvable private addresses and of their resolution through the
    resolving list.
    Sources: include/hci/address_with_type.h, include/crypto/crypto.h,
    model/controller/le_controller.cc. AES-128 (OpenSSL) is an arbitrary
    function [aes] from key and message to an output; std::rand is an arbitrary
    sequence of natural numbers. *)
From Verif Require Import Prelude Address.
Open Scope N_scope.

(** packets/hci_packets.pdl:3289-3294 AddressType *)
Inductive address_type :=
| PUBLIC_DEVICE | RANDOM_DEVICE | PUBLIC_IDENTITY | RANDOM_IDENTITY.

(** packets/hci_packets.pdl:3276-3279 PeerAddressType *)
Inductive peer_type := PEER_PUBLIC | PEER_RANDOM.

(** include/hci/address_with_type.h:36-43 *)
Record address_with_type := AWT { awt_addr : list N; awt_type : address_type }.

Definition address_type_eqb (a b : address_type) : bool :=
  match a, b with
  | PUBLIC_DEVICE, PUBLIC_DEVICE | RANDOM_DEVICE, RANDOM_DEVICE
  | PUBLIC_IDENTITY, PUBLIC_IDENTITY | RANDOM_IDENTITY, RANDOM_IDENTITY => true
  | _, _ => false
  end.

Definition peer_type_eqb (a b : peer_type) : bool :=
  match a, b with PEER_PUBLIC, PEER_PUBLIC | PEER_RANDOM, PEER_RANDOM => true | _, _ => false end.

(** include/hci/address_with_type.h:82-84 *)
Definition awt_eqb (a b : address_with_type) : bool :=
  list_eqb (awt_addr a) (awt_addr b) && address_type_eqb (awt_type a) (awt_type b).

(** include/hci/address_with_type.h:102-111 *)
Definition to_peer_type (t : address_type) : peer_type :=
  match t with
  | PUBLIC_DEVICE | PUBLIC_IDENTITY => PEER_PUBLIC
  | RANDOM_DEVICE | RANDOM_IDENTITY => PEER_RANDOM
  end.

(** le_controller.cc:123-130 PeerDeviceAddress *)
Definition peer_device_address (a : list N) (t : peer_type) : address_with_type :=
  AWT a (match t with PEER_PUBLIC => PUBLIC_DEVICE | PEER_RANDOM => RANDOM_DEVICE end).

(** include/hci/address_with_type.h:49-52; an address has six bytes *)
Definition is_rpa (a : address_with_type) : bool :=
  address_type_eqb (awt_type a) RANDOM_DEVICE && (N.land (nth 5 (awt_addr a) 0) 192 =? 64).

(** le_controller.h:790-805 *)
Record resolving_entry := {
  peer_identity_type : peer_type;
  peer_identity_address : list N;
  peer_irk : list N;
  local_irk : list N;
  local_resolvable_address : option (list N);
  peer_resolvable_address : option (list N)
}.

Section WithCipher.
Variable aes : list N -> list N -> list N.

(** include/crypto/crypto.h:33-37: pad the message with zeroes *)
Definition aes_128 (key message : list N) : list N :=
  aes key (message ++ repeat 0 (16 - length message)).

(** include/hci/address_with_type.h:56-75; memcmp on the first three bytes *)
Definition matches_irk (a : address_with_type) (irk : list N) : bool :=
  if negb (is_rpa a) then false
  else
    let prand := [nth 3 (awt_addr a) 0; nth 4 (awt_addr a) 0; nth 5 (awt_addr a) 0] in
    let hash := [nth 0 (awt_addr a) 0; nth 1 (awt_addr a) 0; nth 2 (awt_addr a) 0] in
    list_eqb (firstn 3 (aes_128 irk prand)) hash.

(** le_controller.cc:4311-4324: the random part, from four std::rand values *)
Definition rpa_prand (r0 r1 r2 r3 : N) : list N :=
  let p0 := r0 mod 256 in
  let p1 := r1 mod 256 in
  let p2 := N.land (r2 mod 256) 63 in
  let p0 := if ((p0 =? 0) && (p1 =? 0) && (p2 =? 0)) || ((p0 =? 255) && (p1 =? 255) && (p2 =? 63))
            then (r3 mod 254 + 1) mod 256 else p0 in
  [p0; p1; N.lor p2 64].

(** le_controller.cc:4310-4340 *)
Definition generate_rpa (irk : list N) (r0 r1 r2 r3 : N) : list N :=
  let prand := rpa_prand r0 r1 r2 r3 in
  firstn 3 (aes_128 irk prand) ++ prand.

(** le_controller.cc:268-288: result and updated resolving list *)
Fixpoint resolve_loop (a : address_with_type) (l : list resolving_entry)
  : list resolving_entry * option address_with_type :=
  match l with
  | [] => ([], None)
  | e :: l' =>
      if matches_irk a (peer_irk e) then
        ({| peer_identity_type := peer_identity_type e;
            peer_identity_address := peer_identity_address e;
            peer_irk := peer_irk e; local_irk := local_irk e;
            local_resolvable_address := local_resolvable_address e;
            peer_resolvable_address := Some (awt_addr a) |} :: l',
         Some (peer_device_address (peer_identity_address e) (peer_identity_type e)))
      else let '(l'', r) := resolve_loop a l' in (e :: l'', r)
  end.

Definition resolve_private_address (enabled : bool) (l : list resolving_entry)
  (a : address_with_type) : list resolving_entry * option address_with_type :=
  if negb (is_rpa a) then (l, Some a)
  else if negb enabled then (l, None)
  else resolve_loop a l.

(** le_controller.cc:290-303 *)
Definition resolve_target_a (enabled : bool) (l : list resolving_entry)
  (target_a adv_a : address_with_type) : bool :=
  enabled &&
  existsb (fun e => awt_eqb adv_a (peer_device_address (peer_identity_address e) (peer_identity_type e))
                    && matches_irk target_a (local_irk e)) l.

(** le_controller.cc:315-335 *)
Fixpoint generate_for (l : list resolving_entry) (a : address_with_type) (local : bool)
  (r0 r1 r2 r3 : N) : list resolving_entry * option address_with_type :=
  match l with
  | [] => ([], None)
  | e :: l' =>
      if list_eqb (awt_addr a) (peer_identity_address e)
         && peer_type_eqb (to_peer_type (awt_type a)) (peer_identity_type e) then
        let irk := if local then local_irk e else peer_irk e in
        let rpa := generate_rpa irk r0 r1 r2 r3 in
        let e' := if local then
            {| peer_identity_type := peer_identity_type e;
               peer_identity_address := peer_identity_address e;
               peer_irk := peer_irk e; local_irk := local_irk e;
               local_resolvable_address := Some rpa;
               peer_resolvable_address := peer_resolvable_address e |} else e in
        (e' :: l', Some (AWT rpa RANDOM_DEVICE))
      else let '(l'', r) := generate_for l' a local r0 r1 r2 r3 in (e :: l'', r)
  end.
End WithCipher.

(** What is assumed of AES_128 (include/crypto/crypto.h:26-28): the output is an
    array of 16 bytes. *)
Definition cipher_ok (aes : list N -> list N -> list N) : Prop :=
  (forall k m, length (aes k m) = 16%nat) /\ (forall k m, forallb is_byte (aes k m) = true).
