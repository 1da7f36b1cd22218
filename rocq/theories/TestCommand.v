(** The commands of the test channel.

    Models model/setup/test_command_handler.cc, with the device factory
    (model/setup/device_boutique.cc, model/devices/beacon.cc 48-56 and
    model/devices/sniffer.cc 33-37). *)
From Coq Require Import String Ascii.
From Verif Require Import Prelude Table Address PhyModel.
Open Scope N_scope.

(** The characters of a literal. *)
Fixpoint str (s : string) : list N :=
  match s with EmptyString => [] | String c s => N_of_ascii c :: str s end.

(** ** Numbers *)

Fixpoint digits (base acc : N) (s : list N) : N * list N :=
  match s with
  | c :: r =>
      match digit_value c with
      | Some d => if d <? base then digits base (base * acc + d) r else (acc, s)
      | None => (acc, s)
      end
  | [] => (acc, [])
  end.

Definition starts_number (base : N) (s : list N) : bool :=
  match s with
  | c :: _ => match digit_value c with Some d => d <? base | None => false end
  | [] => false
  end.

Definition sign (s : list N) : bool * list N :=
  match s with
  | c :: r => if c =? 45 then (true, r) else if c =? 43 then (false, r) else (false, s)
  | [] => (false, [])
  end.

(** Base 8 after a leading 0. *)
Definition base_of (s : list N) : N := match s with c :: _ => if c =? 48 then 8 else 10 | [] => 10 end.

(** C strtoul with base 0: 0 when there is no number. *)
Definition strtoul0 (s : list N) : N :=
  let '(neg, s1) := sign (skip_spaces s) in
  let v :=
    if list_eqb (skip_prefix s1) s1 then
      fst (digits (base_of s1) 0 s1)
    else fst (digits 16 0 (skip_prefix s1)) in
  if 2 ^ 64 <=? v then 2 ^ 64 - 1 else if neg : bool then (2 ^ 64 - v) mod 2 ^ 64 else v.

(** ParseIntParam (34-36), then converted to a 32 bit identifier. *)
Definition parse_int (s : list N) : N := strtoul0 s.
Definition to_id (n : N) : N := n mod 2 ^ 32.

(** std::stoi: [None] when it throws. *)
Definition stoi (s : list N) : option Z :=
  let '(neg, s1) := sign (skip_spaces s) in
  if starts_number 10 s1 then
    let v := Z.of_N (fst (digits 10 0 s1)) in
    let z := if neg : bool then (- v)%Z else v in
    if ((- 2 ^ 31 <=? z) && (z <? 2 ^ 31))%Z then Some z else None
  else None.

(** ** Commands *)

(** What a command does to the model: topology and timer operations, in order,
    or a remote connection attempt. *)
Inductive effect :=
| ETopology (o : op)
| ETimer (o : timer_op)
| EConnect (host : list N) (port : N) (ty : phy_type)
| EConfigure (d : N).

(** The kind of response sent. The texts are not modelled. *)
Inductive response := Unhandled | Usage | Failed | Done | Listing.

Inductive outcome :=
| Ok (effects : list effect) (responses : list response)
| Undefined                  (* args[0] of an empty vector *)
| Throws.                    (* exception that nothing catches *)

(** Address of a Device after construction: device.cc 36-38. *)
Definition default_address : list N := [173; 187; 187; 187; 187; 187].

(** The address given as second argument, if any: FromString leaves the empty
    address on failure. *)
Definition arg_address (args : list (list N)) : list N :=
  match args with
  | _ :: a :: _ => snd (from_string_into a default_address)
  | _ => default_address
  end.

Definition port_ok (host : list N) (port : N) : bool :=
  negb (port =? 0) && (port <=? 65535) && (2 <=? lenN host).

(** HandleCommand (85-92) and the methods (100-307). *)
Definition handle (name : list N) (args : list (list N)) : outcome :=
  let is s := list_eqb name (str s) in
  if is "add"%string then
    match args with
    | [] => Ok [] [Usage]
    | kind :: rest =>
        if list_eqb kind (str "beacon"%string) then
          match rest with
          | _ :: i :: _ => match stoi i with
                           | Some _ => Ok [ETopology (AddDevice (arg_address args))] [Done]
                           | None => Throws
                           end
          | _ => Ok [ETopology (AddDevice (arg_address args))] [Done]
          end
        else if list_eqb kind (str "sniffer"%string) then Ok [ETopology (AddDevice (arg_address args))] [Done]
        else Ok [] [Failed]
    end
  else if is "add_remote"%string then
    match args with
    | host :: p :: ty :: _ =>
        let port := parse_int p in
        if port_ok host port then
          Ok [EConnect host port (if list_eqb ty (str "LOW_ENERGY"%string) then LowEnergy else BrEdr)] [Done]
        else Ok [] [Failed]
    | _ => Ok [] [Usage]
    end
  else if is "del"%string then
    match args with
    | [] => Undefined
    | d :: _ => Ok [ETopology (RemoveDevice (to_id (parse_int d)))] [Done]
    end
  else if is "add_phy"%string then
    match args with
    | [ty] =>
        if list_eqb ty (str "LOW_ENERGY"%string) then Ok [ETopology (AddPhy LowEnergy)] [Done]
        else if list_eqb ty (str "BR_EDR"%string) then Ok [ETopology (AddPhy BrEdr)] [Done]
        else Ok [] [Failed]
    | _ => Ok [] [Usage]
    end
  else if is "del_phy"%string then
    match args with
    | [] => Undefined
    | l :: _ => Ok [ETopology (RemovePhy (to_id (parse_int l)))] [Done]
    end
  else if is "add_device_to_phy"%string then
    match args with
    | [d; l] => Ok [ETopology (AddToPhy (to_id (parse_int d)) (to_id (parse_int l)))] [Done]
    | _ => Ok [] [Usage]
    end
  else if is "del_device_from_phy"%string then
    match args with
    | [d; l] => Ok [ETopology (RemoveFromPhy (to_id (parse_int d)) (to_id (parse_int l)))] [Done]
    | _ => Ok [] [Usage]
    end
  else if is "list"%string then
    match args with [] => Ok [] [Listing] | _ => Ok [] [] end
  else if is "set_device_address"%string then
    match args with
    | [d; a] => Ok [ETopology (SetAddress (to_id (parse_int d)) (snd (from_string_into a kEmpty)))] [Done]
    | _ => Ok [] [Usage]
    end
  else if is "set_device_configuration"%string then
    match args with
    | [d; p] =>
        if existsb (list_eqb p) [str "default"%string; str "laird_bl654"%string; str "csr_rck_pts_dongle"%string; str "intel_be200"%string]
        then Ok [EConfigure (to_id (parse_int d))] [Done] else Ok [] [Failed]
    | _ => Ok [] [Usage]
    end
  else if is "set_timer_period"%string then
    match args with
    | [] => Undefined
    | p :: _ => if parse_int p =? 0 then Ok [] [Failed] else Ok [ETimer (SetPeriod (parse_int p))] [Done]
    end
  else if is "start_timer"%string then Ok [ETimer StartTimer] [Done]
  else if is "stop_timer"%string then Ok [ETimer StopTimer] [Done]
  else if is "reset"%string then Ok [ETimer StopTimer; ETopology Reset] [Done]
  else Ok [] [Unhandled].
