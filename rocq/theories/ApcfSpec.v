(** Specification of the advertising packet content filters, in terms of the commands the
    host sent and the statuses it got. *)
From Verif Require Import Prelude Apcf.
Open Scope N_scope.

(** The indices of the filters defined: added with success, and not deleted since *)
Fixpoint defined (h : list exchange) : list N :=
  match h with
  | [] => []
  | Exchange c SUCCESS _ :: h =>
      match c with
      | AddParameters f => filter_index f :: defined h
      | DeleteParameters i => List.filter (fun x => negb (x =? i)) (defined h)
      | ClearParameters | Reset => []
      | _ => defined h
      end
  | _ :: h => defined h
  end.
Definition is_defined (i : N) (h : list exchange) : bool := existsb (N.eqb i) (defined h).

(** The kinds of conditions, and the commands which change them: the action, the filter
    index, and the condition as the host wrote it *)
Inductive kind := KAddress | KUuid | KSolicitation | KName | KManufacturer | KService | KAdType.
Inductive condition := CAddress (a t : N) | CBytes (b : list N) | CAd (t : N) (d m : list N).
Definition kind_eqb (a b : kind) : bool :=
  match a, b with
  | KAddress, KAddress | KUuid, KUuid | KSolicitation, KSolicitation | KName, KName | KManufacturer, KManufacturer
  | KService, KService | KAdType, KAdType => true
  | _, _ => false
  end.
Definition condition_eqb (x y : condition) : bool :=
  match x, y with
  | CAddress a t, CAddress b u => (a =? b) && (t =? u)
  | CBytes a, CBytes b => list_eqb a b
  | CAd t d m, CAd u e n => (t =? u) && list_eqb d e && list_eqb m n
  | _, _ => false
  end.
Definition request (c : command) : option (kind * action * N * condition) :=
  match c with
  | BroadcasterAddress a i x t => Some (KAddress, a, i, CAddress x t)
  | ServiceUuid a i b => Some (KUuid, a, i, CBytes b)
  | ServiceSolicitationUuid a i b => Some (KSolicitation, a, i, CBytes b)
  | LocalName a i b => Some (KName, a, i, CBytes b)
  | ManufacturerData a i b => Some (KManufacturer, a, i, CBytes b)
  | ServiceData a i b => Some (KService, a, i, CBytes b)
  | AdType a i t d m => Some (KAdType, a, i, CAd t d m)
  | _ => None
  end.

(** The conditions of a kind in force, with their filters *)
Fixpoint conditions (k : kind) (h : list exchange) : list (N * condition) :=
  match h with
  | [] => []
  | Exchange c SUCCESS _ :: h =>
      match c with
      | DeleteParameters i => List.filter (fun x => negb (fst x =? i)) (conditions k h)
      | ClearParameters | Reset => []
      | _ =>
          match request c with
          | Some (k', a, i, v) =>
              if kind_eqb k k' then
                match a with
                | ADD => (i, v) :: conditions k h
                | DELETE => List.filter (fun x => negb ((fst x =? i) && condition_eqb (snd x) v)) (conditions k h)
                | CLEAR => List.filter (fun x => negb (fst x =? i)) (conditions k h)
                | ACTION_OTHER => conditions k h
                end
              else conditions k h
          | None => conditions k h
          end
      end
  | _ :: h => conditions k h
  end.

Definition capacity (z : sizes) (k : kind) : N :=
  match k with
  | KAddress => broadcaster_address_size z
  | KUuid => service_uuid_size z
  | KSolicitation => service_solicitation_uuid_size z
  | KName => local_name_size z
  | KManufacturer => manufacturer_data_size z
  | KService => service_data_size z
  | KAdType => ad_type_size z
  end.

(** The sizes are bytes *)
Definition sizes_ok (z : sizes) : Prop := filter_list_size z < 256 /\ forall k, capacity z k < 256.

(** The status a command must get after [h] *)
Definition expected_status (z : sizes) (h : list exchange) (c : command) : error :=
  match c with
  | Enable _ | ClearParameters | Reset => SUCCESS
  | AddParameters f =>
      if is_defined (filter_index f) h then INVALID_PARAMETERS
      else if filter_list_size z <=? lenN (defined h) then MEMORY_CAPACITY_EXCEEDED else SUCCESS
  | DeleteParameters i => if is_defined i h then SUCCESS else UNKNOWN_CONNECTION
  | BroadcasterAddress ACTION_OTHER _ _ _ => INVALID_PARAMETERS
  | _ =>
      match request c with
      | Some (k, a, i, _) =>
          if is_defined i h then
            match a with
            | ADD => if capacity z k <=? lenN (conditions k h) then MEMORY_CAPACITY_EXCEEDED else SUCCESS
            | DELETE | CLEAR => SUCCESS
            | ACTION_OTHER => INVALID_PARAMETERS
            end
          else UNKNOWN_CONNECTION
      | None => SUCCESS
      end
  end.

(** The number of spaces which must be reported in the exchange at the head of [h]: those
    left after the command *)
Definition expected_spaces (z : sizes) (c : command) (h : list exchange) : option N :=
  match c with
  | Enable _ | Reset | BroadcasterAddress ACTION_OTHER _ _ _ => None
  | AddParameters _ | DeleteParameters _ | ClearParameters => Some (filter_list_size z - lenN (defined h))
  | _ => match request c with Some (k, _, _, _) => Some (capacity z k - lenN (conditions k h)) | None => None end
  end.
