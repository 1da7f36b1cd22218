(** Vocabulary of the own addresses of the LE controller (Bluetooth Core, Vol 4, Part E,
    the parameter Own_Address_Type): what the host asked for, and which addresses obey. *)
From Verif Require Import Prelude Address Rpa Table LeTypes LeAdvertise LeHost LeHistory LeListsSpec LeFilterSpec.
Open Scope N_scope.

(** The resolving list holds the local key [irk] for the device [peer] *)
Definition key_for (h : list entry) (peer : address_with_type) (irk : list N) : Prop :=
  exists p, resolving_holds h (match awt_type peer with
                               | PUBLIC_DEVICE | PUBLIC_IDENTITY => PEER_PUBLIC
                               | RANDOM_DEVICE | RANDOM_IDENTITY => PEER_RANDOM end, awt_addr peer, p, irk).

(** The address to be used with [peer]: the public address, the random address, or an
    address made with the local key for that device, with one of the others to fall back
    on when there is no such key. A random address which was never set is not used. *)
Inductive obeys (aes : list N -> list N -> list N) (h : list entry) (peer : address_with_type) (public random : list N)
  : own_type -> address_with_type -> Prop :=
| obeys_public : obeys aes h peer public random OWN_PUBLIC (AWT public PUBLIC_DEVICE)
| obeys_random : random <> empty_address -> obeys aes h peer public random OWN_RANDOM (AWT random RANDOM_DEVICE)
| obeys_key : forall o a irk, o = OWN_RPA_OR_PUBLIC \/ o = OWN_RPA_OR_RANDOM ->
    key_for h peer irk -> matches_irk aes a irk = true -> obeys aes h peer public random o a
| obeys_else_public : (forall irk, ~ key_for h peer irk) ->
    obeys aes h peer public random OWN_RPA_OR_PUBLIC (AWT public PUBLIC_DEVICE)
| obeys_else_random : (forall irk, ~ key_for h peer irk) -> random <> empty_address ->
    obeys aes h peer public random OWN_RPA_OR_RANDOM (AWT random RANDOM_DEVICE).

(** The random address of the controller since the last reset *)
Fixpoint random_given (h : list entry) : list N :=
  match h with
  | [] => empty_address
  | e :: h =>
      match what e, status_of e with
      | Command Reset, _ => empty_address
      | Command (SetRandomAddress a), Some SUCCESS => a
      | _, _ => random_given h
      end
  end.

(** The random address of the advertising set [x] *)
Fixpoint set_random_given (x : N) (h : list entry) : list N :=
  match h with
  | [] => empty_address
  | e :: h =>
      match what e, status_of e with
      | Command Reset, _ => empty_address
      | Command ClearSets, Some SUCCESS => empty_address
      | Command (RemoveSet y), Some SUCCESS => if y =? x then empty_address else set_random_given x h
      | Command (SetSetRandomAddress y a), Some SUCCESS => if y =? x then a else set_random_given x h
      | _, _ => set_random_given x h
      end
  end.

(** The kind of own address of legacy advertising, of scanning, of initiating *)
Fixpoint legacy_own_given (h : list entry) : own_type :=
  match h with
  | [] => OWN_PUBLIC
  | e :: h =>
      match what e, status_of e with
      | Command Reset, _ => OWN_PUBLIC
      | Command (SetAdvParameters _ _ _ o _ _ _ _), Some SUCCESS => o
      | _, _ => legacy_own_given h
      end
  end.
Fixpoint scan_own_given (h : list entry) : own_type :=
  match h with
  | [] => OWN_PUBLIC
  | e :: h =>
      match what e, status_of e with
      | Command Reset, _ => OWN_PUBLIC
      | Command (SetScanParameters _ _ _ o _), Some SUCCESS => o
      | Command (SetExtScanParameters o _ _ _), Some SUCCESS => o
      | _, _ => scan_own_given h
      end
  end.
Fixpoint init_own_given (h : list entry) : option own_type :=
  match h with
  | [] => None
  | e :: h =>
      match what e, status_of e with
      | Command Reset, _ => None
      | Command (CreateConnection _ _ o _), Some SUCCESS => Some o
      | Command (ExtCreateConnection _ o _ _ _), Some SUCCESS => Some o
      | _, _ => init_own_given h
      end
  end.

(** [begun c h h0]: the history [h] goes through the command [c] after [h0] *)
Definition begun (c : command -> Prop) (h h0 : list entry) : Prop :=
  exists h1 e d, h = h1 ++ e :: h0 /\ what e = Command d /\ c d.
Definition starts_legacy (c : command) : Prop := c = SetAdvEnable true.
Definition starts_set (x : N) (c : command) : Prop := exists l, c = SetExtEnable true l /\ In x (map en_handle l).

(** The address of an advertiser: it was chosen when advertising was begun. [s] is the
    state after the history [h]. *)
Inductive advertises_as (aes : list N -> list N -> list N) (h : list entry) (s : le) (a : address_with_type) : Prop :=
| legacy_as : forall h0 t p pol, l_enabled (legacy s) = true -> begun starts_legacy h h0 -> legacy_given h = (t, p, pol) ->
    obeys aes h0 p (public_address s) (random_given h) (legacy_own_given h) a -> advertises_as aes h s a
| set_as : forall x b e h0, lookup (sets s) x = Some b -> enabled b = true -> begun (starts_set x) h h0 ->
    set_given x h = Some e ->
    obeys aes h0 (peer_device_address (e_peer e) (e_peer_kind e)) (public_address s) (set_random_given x h) (e_own e) a ->
    advertises_as aes h s a.

(** The sender of an advertising packet *)
Definition advert_from (p : air) : option address_with_type :=
  match p with
  | AirLegacy a _ _ _ => Some a
  | AirExtended a _ _ _ _ _ _ _ _ _ _ => Some a
  | AirScanResponse a _ _ => Some a
  | _ => None
  end.
