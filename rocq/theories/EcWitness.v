(** Concrete keys. *)
From Verif Require Import Prelude Ec EcSpec EcProofs.
Open Scope Z_scope.

(** Random bytes that give a small private key. *)
Definition draw (c : curve) (v : N) : list N := v :: repeat 0%N (key_size c - 1).

Definition public_of (c : curve) (v : N) : list N :=
  match derive c (draw c v) with Some l => l | None => [] end.

Definition secret_of (c : curve) (v : N) (public : list N) : list N :=
  match shared_secret c (draw c v) public with Some l => l | None => [] end.

Lemma draw_bytes c v : is_byte v = true -> bytes_of (key_size c) (draw c v).
Proof.
  intros B. split; [destruct c; reflexivity|]. constructor; [exact B|].
  apply Forall_forall. intros b I. apply repeat_spec in I. subst b. reflexivity.
Qed.

Lemma private_key_panics c : exists r, bytes_of (key_size c) r /\ generate c r = None.
Proof.
  exists (repeat 0%N (key_size c - 1) ++ [128%N]). split; [|destruct c; vm_compute; reflexivity].
  split; [destruct c; reflexivity|]. apply Forall_app. split.
  - apply Forall_forall. intros b I. apply repeat_spec in I. subst b. reflexivity.
  - repeat constructor.
Qed.

Lemma private_key_case : generate P256 (repeat 255%N 32) = Some (draw P256 1) /\ magnitude nist256 (repeat 255%N 32) = 1.
Proof. split; vm_compute; reflexivity. Qed.

(** The second coordinate of twice the base point of P-256, and of five times the one of
    P-192, is sent wrong. *)
Lemma public_key_invalid c :
  exists r key public, bytes_of (key_size c) r /\ generate c r = Some key /\
    derive c key = Some public /\ ~ valid_public_key (shape_of c) public.
Proof.
  destruct c.
  - exists (draw P192 5), (draw P192 5), (public_of P192 5).
    split; [apply draw_bytes; reflexivity|]. split; [vm_compute; reflexivity|].
    split; [vm_compute; reflexivity|]. intros (_ & _ & _ & E). vm_compute in E. discriminate.
  - exists (draw P256 2), (draw P256 2), (public_of P256 2).
    split; [apply draw_bytes; reflexivity|]. split; [vm_compute; reflexivity|].
    split; [vm_compute; reflexivity|]. intros (_ & _ & _ & E). vm_compute in E. discriminate.
Qed.

Lemma public_key_case :
  derive P192 (draw P192 3) = Some (public_of P192 3) /\ from_signed_bytes (draw P192 3) = 3 /\
  smooth P192 3 (base P192) Infinite = true /\ valid_public_key nist192 (public_of P192 3) /\
  derive P256 (draw P256 5) = Some (public_of P256 5) /\ smooth P256 5 (base P256) Infinite = true.
Proof.
  split; [vm_compute; reflexivity|]. split; [vm_compute; reflexivity|]. split; [vm_compute; reflexivity|].
  split; [|split; vm_compute; reflexivity].
  vm_compute. repeat split; intros; discriminate.
Qed.

(** Two devices with the private keys two and three. *)
Lemma secrets_differ c :
  exists ka kb pa pb sa sb,
    generate c (draw c 2) = Some ka /\ generate c (draw c 3) = Some kb /\
    derive c ka = Some pa /\ derive c kb = Some pb /\
    shared_secret c ka pb = Some sa /\ shared_secret c kb pa = Some sb /\ sa <> sb.
Proof.
  exists (draw c 2), (draw c 3), (public_of c 2), (public_of c 3),
    (secret_of c 2 (public_of c 3)), (secret_of c 3 (public_of c 2)).
  destruct c; (split; [vm_compute; reflexivity|]); (split; [vm_compute; reflexivity|]);
    (split; [vm_compute; reflexivity|]); (split; [vm_compute; reflexivity|]);
    (split; [vm_compute; reflexivity|]); (split; [vm_compute; reflexivity|]);
    intros E; vm_compute in E; discriminate.
Qed.

(** A public key of zeros with an even private key. *)
Lemma zero_key_panics c :
  exists key, generate c (draw c 2) = Some key /\ shared_secret c key (repeat 0%N (2 * key_size c)) = None.
Proof. exists (draw c 2). destruct c; split; vm_compute; reflexivity. Qed.

Lemma shared_case :
  valid_public_key nist192 (public_of P192 3) /\
  number (first_half nist192 (public_of P192 3)) < 2 ^ 191 /\
  number (second_half nist192 (public_of P192 3)) < 2 ^ 191 /\
  smooth P192 5 (to_point (public_of P192 3)) Infinite = true /\
  exists bytes, shared_secret P192 (draw P192 5) (public_of P192 3) = Some bytes.
Proof.
  split; [vm_compute; repeat split; intros; discriminate|].
  split; [vm_compute; reflexivity|]. split; [vm_compute; reflexivity|]. split; [vm_compute; reflexivity|].
  exists (secret_of P192 5 (public_of P192 3)). vm_compute. reflexivity.
Qed.
