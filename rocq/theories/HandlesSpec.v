(** Vocabulary for C07-C09: what the user of the handle manager observes. *)
From Verif Require Import Prelude Handles.
Open Scope N_scope.

(** All live handles of the three link types. *)
Definition live (s : handler) : list N := keys (acls s) ++ keys (scos s) ++ keys (les s).

(** The connection behind a handle. *)
Inductive connection := IsAcl (c : acl) | IsLe (c : le_acl) | IsSco (c : sco).

Definition connection_of (s : handler) (h : N) : option connection :=
  match lookup (acls s) h with
  | Some c => Some (IsAcl c)
  | None =>
      match lookup (scos s) h with
      | Some c => Some (IsSco c)
      | None => match lookup (les s) h with Some c => Some (IsLe c) | None => None end
      end
  end.

(** Ranges of Core specification style handles used by the controller. *)
Definition in_range_of (c : connection) (h : N) : Prop :=
  match c with
  | IsAcl _ => 0x000 <= h <= 0x0FF
  | IsSco _ => 0x100 <= h <= 0x1FF
  | IsLe _ => 0x200 <= h <= 0x2FF
  end.

Definition reachable (s : handler) : Prop := exists ops, run init ops = Some s.

(** Number of live handles of the type a creation allocates from. *)
Definition live_of_type (s : handler) (o : op) : nat :=
  match o with
  | CreateConnection _ _ => length (acls s)
  | CreateLeConnection _ _ _ => length (les s)
  | CreateScoConnection _ _ _ _ => length (scos s)
  | _ => 0
  end.

Definition is_creation (o : op) : bool :=
  match o with
  | CreateConnection _ _ | CreateLeConnection _ _ _ | CreateScoConnection _ _ _ _ => true
  | _ => false
  end.

(** The connection a creation must install. *)
Definition created (o : op) : option connection :=
  match o with
  | CreateConnection a w => Some (IsAcl {| acl_peer := a; acl_own := w |})
  | CreateLeConnection a w c => Some (IsLe {| le_peer := a; le_own := w; le_central := c |})
  | CreateScoConnection a st sp lg =>
      Some (IsSco {| sco_peer := a; sco_st := st; sco_spoofed := sp; sco_legacy := lg;
                     sco_stream := None |})
  | _ => None
  end.
