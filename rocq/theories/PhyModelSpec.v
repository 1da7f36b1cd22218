(** Vocabulary for the test model. *)
From Verif Require Import Prelude Table PhyModel.
Open Scope N_scope.

Definition reachable (s : model) : Prop := exists p ops, run (init p) ops = Some s.

Definition present (s : model) (d : N) : Prop := In d (keys (devices s)).
Definition address_of (s : model) (d : N) : option (list N) := option_map addr (lookup (devices s) d).

(** How often a device was attached to a layer since it was last detached. *)
Definition times (d : N) (l : list N) : nat := count_occ N.eq_dec l d.
Definition attachments (s : model) (l d : N) : nat :=
  match lookup (layers s) l with Some ly => times d (members ly) | None => 0%nat end.
Definition is_attached (s : model) (l d : N) : bool := negb (Nat.eqb (attachments s l d) 0).

(** The layers of type [ty]. *)
Definition of_type (s : model) (ty : phy_type) : list N := layers_of s (Some ty).

(** The layers of type [ty] the device is attached to. *)
Definition shared (s : model) (d : N) (ty : phy_type) : list N :=
  filter (fun l => is_attached s l d) (of_type s ty).

(** No layer is given a device it already has. *)
Definition careful (s : model) (o : op) : bool :=
  match o with AddToPhy d l => negb (is_attached s l d) | _ => true end.
Fixpoint careful_run (s : model) (ops : list op) : bool :=
  match ops with
  | [] => true
  | o :: ops => careful s o && match step s o with Some s1 => careful_run s1 ops | None => true end
  end.

(** An address with the configured prefix (most significant bytes first). *)
Definition with_prefix (p a : list N) : Prop :=
  exists lo hi, lo < 256 /\ hi < 256 /\ a = [lo; hi; nth 3 p 0; nth 2 p 0; nth 1 p 0; nth 0 p 0].

(** How often device [d] is attached to layer [l] after an operation: a link layer
    device is attached to every layer of its type, a host controller to every layer. *)
Definition attachments_after (s : model) (o : op) (l d : N) : nat :=
  let before := attachments s l d in
  match o with
  | AddLinkLayer _ ty =>
      if d =? next_dev s
      then match lookup (layers s) l with
           | Some ly => match ltype ly, ty with LowEnergy, LowEnergy | BrEdr, BrEdr => 1%nat | _, _ => 0%nat end
           | None => 0%nat
           end
      else before
  | AddHci _ =>
      if d =? next_dev s then match lookup (layers s) l with Some _ => 1%nat | None => 0%nat end else before
  | AddToPhy e k =>
      match lookup (layers s) l, lookup (devices s) d with
      | Some _, Some _ => if (e =? d) && (k =? l) then S before else before
      | _, _ => before
      end
  | RemoveFromPhy e k => if (e =? d) && (k =? l) then 0%nat else before
  | RemoveDevice e => if e =? d then 0%nat else before
  | RemovePhy k => if k =? l then 0%nat else before
  | Reset => 0%nat
  | AddDevice _ | AddPhy _ | SetAddress _ _ | SetReuse _ => before
  end.

(** Which devices are present after an operation. *)
Definition present_after (s : model) (o : op) (d : N) : Prop :=
  match o with
  | AddDevice _ | AddLinkLayer _ _ | AddHci _ => present s d \/ d = next_dev s
  | RemoveDevice e => present s d /\ d <> e
  | Reset => False
  | _ => present s d
  end.
