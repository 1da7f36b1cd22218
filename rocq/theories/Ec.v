(** Model of the elliptic curve keys of the Link Manager, rust/src/lmp/ec.rs.

    Simplifications:
    - integers are unbounded (num_bigint::BigInt) and are modelled by [Z]; the operators / and %
      of BigInt truncate towards zero and are [Z.quot] and [Z.rem];
    - byte arrays are lists of numbers below 256, the two variants of a key are told apart by
      a [curve] tag;
    - the random bytes of a private key are an argument. *)
From Verif Require Import Prelude.
Open Scope Z_scope.

(** Truncating division and the functions of BigInt used by the code stay folded. *)
Arguments Z.quot : simpl never.
Arguments Z.rem : simpl never.
Arguments Z.pow : simpl never.

(** rust/src/lmp/ec.rs:206, 229: the two curves *)
Inductive curve := P192 | P256.

(** ec.rs:212-215 and 235-239. The bytes are read by [BigInt::from_bytes_be]. *)
Definition prime (c : curve) : Z :=
  match c with
  | P192 => 0xfffffffffffffffffffffffffffffffeffffffffffffffff
  | P256 => 0xffffffff00000001000000000000000000000000ffffffffffffffffffffffff
  end.

(** ec.rs:211, 234 *)
Definition coefficient_a : Z := -3.

(** ec.rs:216-219 and 240-244 *)
Definition base_x (c : curve) : Z :=
  match c with
  | P192 => 0x188da80eb03090f67cbf20eb43a18800f4ff0afd82ff1012
  | P256 => 0x6b17d1f2e12c4247f8bce6e563a440f277037d812deb33a0f4a13945d898c296
  end.

(** ec.rs:220-223 and 245-249 *)
Definition base_y (c : curve) : Z :=
  match c with
  | P192 => 0x07192b95ffc8da78631011ed6b24cdd573f977a11e794811
  | P256 => 0x4fe342e2fe1a7f9b8ee7eb4a7c0f9e162bce33576b315ececbb6406837bf51f5
  end.

(** ec.rs:224, 250 (PRIVATE_KEY_SIZE); PUBLIC_KEY_SIZE is twice that *)
Definition key_size (c : curve) : nat := match c with P192 => 24%nat | P256 => 32%nat end.

(** num_bigint: the number of bits of a natural number *)
Definition bits (v : Z) : Z := if v =? 0 then 0 else Z.log2 v + 1.

(** num_bigint: the least number of bytes of a two's complement representation *)
Definition width (v : Z) : nat := Z.to_nat (bits (if v <? 0 then - v - 1 else v) / 8 + 1).

(** the [n] low bytes of a number, least significant first *)
Fixpoint low_bytes (n : nat) (v : Z) : list N :=
  match n with
  | O => []
  | S n => Z.to_N (v mod 256) :: low_bytes n (v / 256)
  end.

(** num_bigint: BigInt::to_signed_bytes_le *)
Definition to_signed_bytes (v : Z) : list N := low_bytes (width v) v.

(** the number of which the bytes are the little-endian digits *)
Fixpoint unsigned (l : list N) : Z :=
  match l with
  | [] => 0
  | b :: l => Z.of_N b + 256 * unsigned l
  end.

(** num_bigint: BigInt::from_signed_bytes_le *)
Definition from_signed_bytes (l : list N) : Z :=
  let v := unsigned l in
  let n := Z.of_nat (List.length l) in
  if (0 <? n) && (2 ^ (8 * n - 1) <=? v) then v - 2 ^ (8 * n) else v.

(** Vec::resize with zero *)
Definition resize (n : nat) (l : list N) : list N := firstn n l ++ repeat 0%N (n - List.length l).

(** ec.rs:111-125 and 127-141 (PrivateKey::generate_p192, generate_p256), with the random bytes
    [r]; None is the panic of the slice [inner[0..buf.len()]] when the buffer is too long *)
Definition generate (c : curve) (r : list N) : option (list N) :=
  let key := from_signed_bytes r in
  let key := if key <? 0 then - key else key in
  let key := if key <? 1 then 1 else key in
  let buf := to_signed_bytes key in
  if (key_size c <? List.length buf)%nat then None
  else Some (buf ++ repeat 0%N (key_size c - List.length buf)).

(** num_integer: the loop of Integer::extended_gcd over the pairs [r] and [s], which is run
    until the first element of [r] is zero. None when the fuel is used up, which does not
    happen (EcProofs.euclid_ends). *)
Fixpoint euclid (fuel : nat) (r0 r1 s0 s1 : Z) : option (Z * Z) :=
  if r0 =? 0 then Some (r1, s1)
  else
    match fuel with
    | O => None
    | S fuel =>
        let q := Z.quot r1 r0 in
        euclid fuel (r1 - q * r0) r0 (s1 - q * s0) s0
    end.

(** num_integer: Integer::extended_gcd, the fields gcd and x *)
Definition extended_gcd (x m : Z) : option (Z * Z) :=
  match euclid (Z.to_nat (2 * Z.log2 (Z.abs m) + 3)) m x 0 1 with
  | Some (r, s) => Some (if 0 <=? r then (r, s) else (- r, - s))
  | None => None
  end.

(** ec.rs:182-189 (mod_inv) *)
Definition mod_inv (x m : Z) : option Z :=
  match extended_gcd x m with
  | Some (g, s) => if g =? 1 then Some (Z.rem s m) else None
  | None => None
  end.

(** ec.rs:256-259: points in Jacobian coordinates *)
Inductive point := Infinite | Finite (x y z : Z).

(** ec.rs:277-279 *)
Definition from_affine (x y : Z) : point := Finite x y 1.

(** ec.rs:281-286 *)
Definition base (c : curve) : point := from_affine (base_x c) (base_y c).

(** What the conversion of a point gives: no coordinates for the point at infinity, or a panic
    when the last coordinate has no inverse. *)
Inductive affine := Nowhere | At (x y : Z) | NoInverse.

(** ec.rs:288-299 (to_affine) *)
Definition to_affine (c : curve) (a : point) : affine :=
  match a with
  | Infinite => Nowhere
  | Finite x y z =>
      match mod_inv z (prime c) with
      | None => NoInverse
      | Some i => At (Z.rem (x * i ^ 2) (prime c)) (Z.rem (y * i ^ 3) (prime c))
      end
  end.

(** ec.rs:301-310 (to_bytes), and the unwrap of its callers: None is a panic *)
Definition to_bytes (c : curve) (a : point) : option (list N) :=
  match to_affine c a with
  | At x y => Some (resize (key_size c) (to_signed_bytes x) ++ resize (key_size c) (to_signed_bytes y))
  | _ => None
  end.

(** ec.rs:312-331 (double) *)
Definition double (c : curve) (a : point) : point :=
  match a with
  | Infinite => Infinite
  | Finite x y z =>
      if y =? 0 then Infinite
      else
        let s := 4 * x * y ^ 2 in
        let m := 3 * x ^ 2 + coefficient_a * z ^ 4 in
        let rx := m ^ 2 - 2 * s in
        let ry := m * (s - rx) - 8 * y ^ 4 in
        let rz := 2 * y * z in
        Finite (Z.rem rx (prime c)) (Z.rem ry (prime c)) (Z.rem rz (prime c))
  end.

(** ec.rs:353-391 (add) *)
Definition add (c : curve) (a b : point) : point :=
  match a, b with
  | Infinite, Infinite => Infinite
  | Infinite, Finite _ _ _ => b
  | Finite _ _ _, Infinite => a
  | Finite x1 y1 z1, Finite x2 y2 z2 =>
      let p := prime c in
      let u1 := Z.rem (x1 * z2 ^ 2) p in
      let u2 := Z.rem (x2 * z1 ^ 2) p in
      let s1 := Z.rem (y1 * z2 ^ 3) p in
      let s2 := Z.rem (y2 * z1 ^ 3) p in
      if u1 =? u2 then
        if negb (s1 =? s2) then Infinite else double c a
      else
        let h := u2 - u1 in
        let r := s2 - s1 in
        let h3 := Z.rem (h ^ 3) p in
        let u1h2 := Z.rem (u1 * h ^ 2) p in
        let x3 := r ^ 2 - h3 - 2 * u1h2 in
        let y3 := r * (u1h2 - x3) - s1 * h3 in
        let z3 := h * z1 * z2 in
        Finite (Z.rem x3 p) (Z.rem y3 p) (Z.rem z3 p)
  end.

(** ec.rs:399-414 (mul). The loop halves [i] until it is zero and is written as a recursion over
    the binary digits of its positive values; [digits] are the ones left. *)
Fixpoint multiply_loop (c : curve) (digits : positive) (addend result : point) : point :=
  match digits with
  | xH => add c result addend
  | xO i => multiply_loop c i (double c addend) result
  | xI i => multiply_loop c i (double c addend) (add c result addend)
  end.

(** ec.rs:399-414. A negative number [i] is odd when its opposite is, and i /= 2 truncates: the
    digits are those of the absolute value. *)
Definition multiply (c : curve) (a : point) (i : Z) : point :=
  match i with
  | Z0 => Infinite
  | Zpos d | Zneg d => multiply_loop c d a Infinite
  end.

(** ec.rs:154-165 (PrivateKey::derive); None is a panic *)
Definition derive (c : curve) (key : list N) : option (list N) :=
  to_bytes c (multiply c (base c) (from_signed_bytes key)).

(** ec.rs:72-82 (get_x, get_y, to_point) *)
Definition to_point (key : list N) : point :=
  let n := (List.length key / 2)%nat in
  from_affine (from_signed_bytes (firstn n key)) (from_signed_bytes (skipn n key)).

(** ec.rs:167-178 (PrivateKey::shared_secret); None is a panic *)
Definition shared_secret (c : curve) (key public : list N) : option (list N) :=
  to_bytes c (multiply c (to_point public) (from_signed_bytes key)).
