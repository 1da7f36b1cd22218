(** Model of Bluetooth addresses and of their text form.
    Sources: include/hci/address.h, lib/hci/address.cc.
    Characters are their ASCII codes; an address is the list of its six bytes
    in storage order (little endian, address[0] first). *)
From Verif Require Import Prelude.
Open Scope N_scope.

(** include/hci/address.h:39-48 *)
Definition wf_address (a : list N) : bool :=
  (Nat.eqb (length a) 6) && forallb is_byte a.

(** lib/hci/address.cc:37-38 *)
Definition kAny : list N := [255; 255; 255; 255; 255; 255].
Definition kEmpty : list N := [0; 0; 0; 0; 0; 0].

(** One hexadecimal digit as printed with std::hex and std::nouppercase. *)
Definition hex_char (d : N) : N := if d <? 10 then 48 + d else 87 + d.

(** std::setw(2), std::setfill('0') on a byte (lib/hci/address.cc:68) *)
Definition print_byte (b : N) : list N := [hex_char (b / 16); hex_char (b mod 16)].

(** lib/hci/address.cc:67-72, the loop over the reversed bytes *)
Fixpoint print_loop (bytes : list N) : list N :=
  match bytes with
  | [] => []
  | [b] => print_byte b
  | b :: rest => print_byte b ++ 58 :: print_loop rest
  end.

(** lib/hci/address.cc:65-74 *)
Definition to_string (a : list N) : list N := print_loop (rev a).

(** std::getline(stream, token, ':') until it fails (lib/hci/address.cc:85):
    the tokens between colons, without a trailing empty one. *)
Fixpoint getline_tokens (cur : list N) (s : list N) : list (list N) :=
  match s with
  | [] => match cur with [] => [] | _ => [cur] end
  | c :: s' => if c =? 58 then cur :: getline_tokens [] s' else getline_tokens (cur ++ [c]) s'
  end.

(** isspace in the C locale, as used by strtol *)
Definition is_space (c : N) : bool := (c =? 32) || ((9 <=? c) && (c <=? 13)).

(** Value of a hexadecimal digit, as used by strtol *)
Definition digit_value (c : N) : option N :=
  if (48 <=? c) && (c <=? 57) then Some (c - 48)
  else if (97 <=? c) && (c <=? 102) then Some (c - 87)
  else if (65 <=? c) && (c <=? 70) then Some (c - 55)
  else None.

Fixpoint skip_spaces (s : list N) : list N :=
  match s with
  | c :: s' => if is_space c then skip_spaces s' else s
  | [] => []
  end.

(** Digits of strtol: the value accumulated and the unread characters. *)
Fixpoint strtol_digits (acc : N) (s : list N) : N * list N :=
  match s with
  | c :: s' =>
      match digit_value c with
      | Some d => strtol_digits (16 * acc + d) s'
      | None => (acc, s)
      end
  | [] => (acc, [])
  end.

(** The optional 0x prefix of base 16, consumed only if a digit follows. *)
Definition skip_prefix (s : list N) : list N :=
  match s with
  | z :: x :: d :: _ =>
      if (z =? 48) && ((x =? 120) || (x =? 88))
         && (match digit_value d with Some _ => true | None => false end)
      then tl (tl s) else s
  | _ => s
  end.

(** C strtol with base 16 on a NUL-terminated copy of the token: [None] when
    no conversion is possible (temp == token.c_str()), otherwise the value and
    the unread characters. Overflow cannot happen on two characters. *)
Definition strtol16 (s : list N) : option (Z * list N) :=
  let s1 := skip_spaces s in
  let '(neg, s2) :=
    match s1 with
    | c :: s' => if c =? 45 then (true, s') else if c =? 43 then (false, s') else (false, s1)
    | [] => (false, [])
    end in
  let s3 := skip_prefix s2 in
  match s3 with
  | d :: _ =>
      match digit_value d with
      | Some _ =>
          let '(v, rest) := strtol_digits 0 s3 in
          Some ((if neg : bool then - Z.of_N v else Z.of_N v)%Z, rest)
      | None => None
      end
  | [] => None
  end.

(** Conversion of a long to uint8_t. *)
Definition to_uint8 (z : Z) : N := Z.to_N (z mod 256).

(** lib/hci/address.cc:94-103 for one token; the length test is line 90. *)
Definition parse_token (t : list N) : option N :=
  if negb (Nat.eqb (length t) 2) then None
  else match strtol16 t with
       | None => None
       | Some (v, rest) => match rest with [] => Some (to_uint8 v) | _ => None end
       end.

(** lib/hci/address.cc:85-112: [index] tokens read so far into [acc], most
    recent first, which is the order of addr.address.at(5 - index). *)
Fixpoint parse_loop (index : nat) (acc : list N) (tokens : list (list N)) : option (list N) :=
  match tokens with
  | [] => if Nat.eqb index 6 then Some acc else None
  | t :: ts =>
      if Nat.leb 6 index then None
      else match parse_token t with
           | None => None
           | Some b => parse_loop (S index) (b :: acc) ts
           end
  end.

(** lib/hci/address.cc:76-113 *)
Definition from_string (s : list N) : option (list N) :=
  if negb (Nat.eqb (length s) 17) then None
  else parse_loop 0 [] (getline_tokens [] s).

(** lib/hci/address.cc:115-123: returned flag and new value of |to|. *)
Definition from_string_into (s : list N) (to : list N) : bool * list N :=
  match from_string s with
  | None => (false, kEmpty)
  | Some a => (true, a)
  end.

(** lib/hci/address.cc:130-132 *)
Definition is_valid_address (s : list N) : bool :=
  match from_string s with Some _ => true | None => false end.

(** include/hci/address.h:73-75 and lib/hci/address.cc:52-63 *)
Definition serialize (a out : list N) : list N := out ++ a.
Definition parse (input : list N) : option (list N * list N) :=
  if Nat.ltb (length input) 6 then None else Some (firstn 6 input, skipn 6 input).
