(** Vocabulary of the properties of the device lists (filter accept list,
    resolving list, periodic advertiser list): what a history of commands adds and
    removes, and when a list is in use. Bluetooth Core, Vol 4, Part E 7.8.15-7.8.17,
    7.8.38-7.8.45, 7.8.70-7.8.72. *)
From Verif Require Import Prelude Address Rpa Table LeTypes LeHost LeHistory.
Open Scope N_scope.

(** * Filter accept list *)

(** Do two entries designate the same devices? All anonymous entries do. *)
Definition same_device (t : accept_type) (a : list N) (t' : accept_type) (a' : list N) : Prop :=
  t = t' /\ (t = ACCEPT_ANONYMOUS \/ a = a').

(** How often a device was added and not removed, according to the statuses returned *)
Inductive accepted : list entry -> accept_type -> list N -> nat -> Prop :=
| accepted_none : forall t a, accepted [] t a 0
| accepted_add : forall now t' a' out h t a n, accepted h t a n -> same_device t' a' t a ->
    accepted (Entry now (Command (AddAcceptList t' a')) (Some SUCCESS) out :: h) t a (S n)
| accepted_remove : forall now t' a' out h t a n, accepted h t a n -> same_device t' a' t a ->
    accepted (Entry now (Command (RemoveAcceptList t' a')) (Some SUCCESS) out :: h) t a (pred n)
| accepted_clear : forall now out h t a,
    accepted (Entry now (Command ClearAcceptList) (Some SUCCESS) out :: h) t a 0
| accepted_reset : forall now st out h t a, accepted (Entry now (Command Reset) st out :: h) t a 0
| accepted_other : forall now o st out h t a n, accepted h t a n ->
    (forall t' a', (o = Command (AddAcceptList t' a') \/ o = Command (RemoveAcceptList t' a')) ->
       st = Some SUCCESS -> ~ same_device t' a' t a) ->
    (o = Command ClearAcceptList -> st <> Some SUCCESS) -> o <> Command Reset ->
    accepted (Entry now o st out :: h) t a n.

(** Is the device in the list? *)
Definition listed (s : le) (t : accept_type) (a : list N) : Prop :=
  exists t' a', In (t', a') (accept s) /\ same_device t' a' t a.

(** The activities which use the filter accept list (Vol 4, Part E 7.8.16): advertising
    with a filter policy other than 0x00, scanning with policy 0x01 or 0x03, initiating
    with policy 0x01 *)
Definition accept_list_in_use (s : le) : Prop :=
  (l_enabled (legacy s) = true /\ l_policy (legacy s) <> ALL_DEVICES)
  \/ (exists h x, In (h, x) (sets s) /\ enabled x = true /\ policy x <> ALL_DEVICES)
  \/ (scan_enabled (scan s) = true
      /\ (scan_filter (scan s) = ACCEPT_LIST_ONLY \/ scan_filter (scan s) = ACCEPT_LIST_AND_IDENTITY))
  \/ (init_enabled (init s) = true /\ init_filter (init s) = USE_ACCEPT_LIST).

Definition changes_accept_list (c : command) : Prop :=
  c = ClearAcceptList \/ (exists t a, c = AddAcceptList t a) \/ (exists t a, c = RemoveAcceptList t a).

(** * Resolving list *)

Definition identity (e : resolving_entry) := (peer_identity_type e, peer_identity_address e).
Definition zero_key (k : list N) : Prop := Forall (fun b => b = 0) k.

(** What the host stored in an entry *)
Definition stored (e : resolving_entry) :=
  (peer_identity_type e, peer_identity_address e, peer_irk e, local_irk e).

(** Advertising, scanning or initiating *)
Definition active (s : le) : Prop :=
  l_enabled (legacy s) = true \/ (exists h x, In (h, x) (sets s) /\ enabled x = true)
  \/ scan_enabled (scan s) = true \/ init_enabled (init s) = true.

Definition changes_resolving_list (c : command) : Prop :=
  c = ClearResolvingList \/ (exists k a p l, c = AddResolvingList k a p l)
  \/ (exists k a, c = RemoveResolvingList k a).

(** The entries a history leaves in the list: the accepted additions which were not
    removed or cleared since *)
Inductive resolving_holds : list entry -> (peer_type * list N * list N * list N) -> Prop :=
| holds_add : forall now k a p l out h,
    resolving_holds (Entry now (Command (AddResolvingList k a p l)) (Some SUCCESS) out :: h) (k, a, p, l)
| holds_still : forall now o st out h k a p l, resolving_holds h (k, a, p, l) ->
    (o = Command (RemoveResolvingList k a) -> st <> Some SUCCESS) ->
    (o = Command ClearResolvingList -> st <> Some SUCCESS) -> o <> Command Reset ->
    resolving_holds (Entry now o st out :: h) (k, a, p, l).

(** * Periodic advertiser list *)

Inductive padv_holds : list entry -> (peer_type * list N * N) -> Prop :=
| padv_add : forall now k a sid out h,
    padv_holds (Entry now (Command (AddPadv k a sid)) (Some SUCCESS) out :: h) (k, a, sid)
| padv_still : forall now o st out h k a sid, padv_holds h (k, a, sid) ->
    (o = Command (RemovePadv k a sid) -> st <> Some SUCCESS) ->
    (o = Command ClearPadv -> st <> Some SUCCESS) -> o <> Command Reset ->
    padv_holds (Entry now o st out :: h) (k, a, sid).

Definition changes_padv (c : command) : Prop :=
  c = ClearPadv \/ (exists k a sid, c = AddPadv k a sid) \/ (exists k a sid, c = RemovePadv k a sid).

(** Is a create sync command pending? The last accepted one was neither cancelled nor
    completed: no report of its completion was sent since. Here: the state says so. *)
Definition sync_pending (s : le) : Prop := syncing s <> None.
