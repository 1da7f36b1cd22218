(** Model of the advertising packet content filters: model/controller/vendor_commands/le_apcf.{h,cc}
    and their use in model/controller/dual_mode_controller.cc:2846-3050. The filters have no
    effect on the advertising reports: no other code reads them. The parameters of a filter
    other than its index are kept as one value. The codec of the commands is not modelled. *)
From Verif Require Import Prelude.
Open Scope N_scope.

Inductive error := SUCCESS | UNKNOWN_CONNECTION | MEMORY_CAPACITY_EXCEEDED | INVALID_PARAMETERS.

(** hci_packets.pdl:6689-6693; [ACTION_OTHER] is any other value *)
Inductive action := ADD | DELETE | CLEAR | ACTION_OTHER.

(** le_apcf.h:25-37 *)
Record filter := Filter { filter_index : N; parameters : list N }.

(** le_apcf.h:40-62: the contents of an entry besides its filter index *)
Inductive value :=
| VAddress (broadcaster : N) (application_type : N)
| VGap (gap_data gap_data_mask : list N)
| VAd (ad_type : N) (ad_data ad_data_mask : list N).
(** le_apcf.cc:107-122, the comparisons *)
Definition value_eqb (a b : value) : bool :=
  match a, b with
  | VAddress x t, VAddress y u => (x =? y) && (t =? u)
  | VGap d m, VGap e n => list_eqb d e && list_eqb m n
  | VAd t d m, VAd u e n => (t =? u) && list_eqb d e && list_eqb m n
  | _, _ => false
  end.
Record entry := Entry { entry_index : N; entry_value : value }.
Definition entry_eqb (a b : entry) : bool := (entry_index a =? entry_index b) && value_eqb (entry_value a) (entry_value b).

(** le_apcf.h:65-74 *)
Record scanner := Scanner {
  enable : bool; filters : list filter;
  broadcaster_address_filters : list entry; service_uuid_filters : list entry;
  service_solicitation_uuid_filters : list entry; local_name_filters : list entry;
  manufacturer_data_filters : list entry; service_data_filters : list entry; ad_type_filters : list entry }.
Definition empty_scanner : scanner := Scanner false [] [] [] [] [] [] [] [].

(** controller_properties.h:199-207 *)
Record sizes := Sizes {
  filter_list_size : N; broadcaster_address_size : N; service_uuid_size : N; service_solicitation_uuid_size : N;
  local_name_size : N; manufacturer_data_size : N; service_data_size : N; ad_type_size : N }.

(** le_apcf.cc:30-33 *)
Definition has_filter_index (s : scanner) (i : N) : bool := existsb (fun f => filter_index f =? i) (filters s).

Definition not_of (i : N) (l : list entry) : list entry := List.filter (fun e => negb (entry_index e =? i)) l.

(** le_apcf.cc:35-66 *)
Definition clear_filter_index (i : N) (s : scanner) : scanner :=
  Scanner (enable s) (filters s)
    (not_of i (broadcaster_address_filters s)) (not_of i (service_uuid_filters s)) (not_of i (service_solicitation_uuid_filters s))
    (not_of i (local_name_filters s)) (not_of i (manufacturer_data_filters s)) (not_of i (service_data_filters s)) (not_of i (ad_type_filters s)).

(** le_apcf.cc:68-77 *)
Definition clear (s : scanner) : scanner := Scanner (enable s) [] [] [] [] [] [] [] [].

(** le_apcf.cc:79-117 *)
Definition update_filter_list (s : scanner) (l : list entry) (max : N) (a : action) (e : entry) : list entry * error :=
  if negb (has_filter_index s (entry_index e)) then (l, UNKNOWN_CONNECTION)
  else match a with
       | ADD => if lenN l =? max then (l, MEMORY_CAPACITY_EXCEEDED) else (l ++ [e], SUCCESS)
       | DELETE => (List.filter (fun x => negb (entry_eqb x e)) l, SUCCESS)
       | CLEAR => (not_of (entry_index e) l, SUCCESS)
       | ACTION_OTHER => (l, INVALID_PARAMETERS)
       end.

(** A size minus a length, converted to uint8_t *)
Definition spaces (size : N) (len : N) : N := (size + 18446744073709551616 - len) mod 256.

(** Commands *)
Inductive command :=
| Enable (b : bool)
| AddParameters (f : filter)
| DeleteParameters (i : N)
| ClearParameters
| BroadcasterAddress (a : action) (i : N) (broadcaster application_type : N)
| ServiceUuid (a : action) (i : N) (bytes : list N)
| ServiceSolicitationUuid (a : action) (i : N) (bytes : list N)
| LocalName (a : action) (i : N) (bytes : list N)
| ManufacturerData (a : action) (i : N) (bytes : list N)
| ServiceData (a : action) (i : N) (bytes : list N)
| AdType (a : action) (i : N) (ad_type : N) (ad_data ad_data_mask : list N)
| Reset.                                                    (* le_controller.cc:6610 *)

(** le_apcf.cc:227-232 (and the same lines of the other functions) *)
Definition split_data (i : N) (bytes : list N) : entry :=
  let half := Nat.div (length bytes) 2 in Entry i (VGap (firstn half bytes) (skipn half bytes)).

(** dual_mode_controller.cc:2926-2929, 2951-2958: the clear sub-command gives no address *)
Definition address_entry (a : action) (i broadcaster application_type : N) : entry :=
  match a with CLEAR => Entry i (VAddress 0 2) | _ => Entry i (VAddress broadcaster application_type) end.

(** The state, the status and the available spaces returned *)
Definition step (z : sizes) (s : scanner) (c : command) : scanner * error * N :=
  match c with
  | Enable b =>                                             (* le_apcf.cc:132-135 *)
      (Scanner b (filters s) (broadcaster_address_filters s) (service_uuid_filters s) (service_solicitation_uuid_filters s)
         (local_name_filters s) (manufacturer_data_filters s) (service_data_filters s) (ad_type_filters s), SUCCESS, 0)
  | AddParameters f =>                                      (* 137-172 *)
      let available := spaces (filter_list_size z) (lenN (filters s)) in
      if has_filter_index s (filter_index f) then (s, INVALID_PARAMETERS, available)
      else if available =? 0 then (s, MEMORY_CAPACITY_EXCEEDED, available)
      else (Scanner (enable s) (filters s ++ [f]) (broadcaster_address_filters s) (service_uuid_filters s) (service_solicitation_uuid_filters s)
              (local_name_filters s) (manufacturer_data_filters s) (service_data_filters s) (ad_type_filters s), SUCCESS, (available + 255) mod 256)
  | DeleteParameters i =>                                   (* 174-192 *)
      let available := spaces (filter_list_size z) (lenN (filters s)) in
      if negb (has_filter_index s i) then (s, UNKNOWN_CONNECTION, available)
      else
        let s1 := Scanner (enable s) (List.filter (fun f => negb (filter_index f =? i)) (filters s)) (broadcaster_address_filters s)
                    (service_uuid_filters s) (service_solicitation_uuid_filters s)
                    (local_name_filters s) (manufacturer_data_filters s) (service_data_filters s) (ad_type_filters s) in
        (clear_filter_index i s1, SUCCESS, (available + 1) mod 256)
  | ClearParameters => (clear s, SUCCESS, filter_list_size z)   (* 194-198 *)
  | BroadcasterAddress a i x t =>                           (* 200-221; dual_mode_controller.cc:2920-2969 *)
      match a with
      | ACTION_OTHER => (s, INVALID_PARAMETERS, 0)
      | _ =>
          let '(l, r) := update_filter_list s (broadcaster_address_filters s) (broadcaster_address_size z) a (address_entry a i x t) in
          (Scanner (enable s) (filters s) l (service_uuid_filters s) (service_solicitation_uuid_filters s)
             (local_name_filters s) (manufacturer_data_filters s) (service_data_filters s) (ad_type_filters s),
           r, spaces (broadcaster_address_size z) (lenN l))
      end
  | ServiceUuid a i b =>                                    (* 223-246 *)
      let '(l, r) := update_filter_list s (service_uuid_filters s) (service_uuid_size z) a (split_data i b) in
      (Scanner (enable s) (filters s) (broadcaster_address_filters s) l (service_solicitation_uuid_filters s)
         (local_name_filters s) (manufacturer_data_filters s) (service_data_filters s) (ad_type_filters s),
       r, spaces (service_uuid_size z) (lenN l))
  | ServiceSolicitationUuid a i b =>                        (* 248-272 *)
      let '(l, r) := update_filter_list s (service_solicitation_uuid_filters s) (service_solicitation_uuid_size z) a (split_data i b) in
      (Scanner (enable s) (filters s) (broadcaster_address_filters s) (service_uuid_filters s) l
         (local_name_filters s) (manufacturer_data_filters s) (service_data_filters s) (ad_type_filters s),
       r, spaces (service_solicitation_uuid_size z) (lenN l))
  | LocalName a i b =>                                      (* 274-296 *)
      let '(l, r) := update_filter_list s (local_name_filters s) (local_name_size z) a (split_data i b) in
      (Scanner (enable s) (filters s) (broadcaster_address_filters s) (service_uuid_filters s) (service_solicitation_uuid_filters s)
         l (manufacturer_data_filters s) (service_data_filters s) (ad_type_filters s),
       r, spaces (local_name_size z) (lenN l))
  | ManufacturerData a i b =>                               (* 298-322 *)
      let '(l, r) := update_filter_list s (manufacturer_data_filters s) (manufacturer_data_size z) a (split_data i b) in
      (Scanner (enable s) (filters s) (broadcaster_address_filters s) (service_uuid_filters s) (service_solicitation_uuid_filters s)
         (local_name_filters s) l (service_data_filters s) (ad_type_filters s),
       r, spaces (manufacturer_data_size z) (lenN l))
  | ServiceData a i b =>                                    (* 324-346 *)
      let '(l, r) := update_filter_list s (service_data_filters s) (service_data_size z) a (split_data i b) in
      (Scanner (enable s) (filters s) (broadcaster_address_filters s) (service_uuid_filters s) (service_solicitation_uuid_filters s)
         (local_name_filters s) (manufacturer_data_filters s) l (ad_type_filters s),
       r, spaces (service_data_size z) (lenN l))
  | AdType a i t d m =>                                     (* 348-365 *)
      let '(l, r) := update_filter_list s (ad_type_filters s) (ad_type_size z) a (Entry i (VAd t d m)) in
      (Scanner (enable s) (filters s) (broadcaster_address_filters s) (service_uuid_filters s) (service_solicitation_uuid_filters s)
         (local_name_filters s) (manufacturer_data_filters s) (service_data_filters s) l,
       r, spaces (ad_type_size z) (lenN l))
  | Reset => (empty_scanner, SUCCESS, 0)
  end.

(** What the host saw, latest first *)
Record exchange := Exchange { sent : command; status : error; available : N }.
Inductive history (z : sizes) : list exchange -> scanner -> Prop :=
| start : history z [] empty_scanner
| next : forall h s c s' r n, history z h s -> step z s c = (s', r, n) -> history z (Exchange c r n :: h) s'.
