(** Model of the tests of the event masks:
    model/controller/le_controller.cc:141-157 (LeController::IsEventUnmasked and
    IsLeEventUnmasked) and model/controller/bredr_controller.cc:64-75
    (BrEdrController::IsEventUnmasked, the same code). *)
From Verif Require Import Prelude.
Open Scope N_scope.

(** [UINT64_C(1) << n] where [n] is an int: undefined ([None]) unless 0 <= n < 64
    (the shift is [evt - 1], so [n] is negative when [evt] is 0) *)
Definition shift_one (n : Z) : option N :=
  if ((0 <=? n) && (n <? 64))%Z then Some (N.shiftl 1 (Z.to_N n)) else None.

Definition test_mask (mask : N) (bit : option N) : option bool :=
  match bit with Some b => Some (negb (N.land mask b =? 0)) | None => None end.

(** le_controller.cc:141-152, bredr_controller.cc:64-75; [evt] is a byte *)
Definition is_event_unmasked (mask mask2 : N) (evt : N) : option bool :=
  if evt <=? 64 then test_mask mask (shift_one (Z.of_N evt - 1))
  else test_mask mask2 (shift_one (Z.of_N (evt - 64) - 1)).

(** le_controller.cc:154-157: the bit is computed first; LE_META_EVENT is 0x3e
    (packets/hci_packets.pdl:827) *)
Definition is_le_event_unmasked (mask mask2 le_mask : N) (sub : N) : option bool :=
  match shift_one (Z.of_N sub - 1), is_event_unmasked mask mask2 62 with
  | Some b, Some on => Some (on && negb (N.land le_mask b =? 0))
  | _, _ => None
  end.
