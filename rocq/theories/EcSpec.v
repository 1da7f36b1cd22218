(** Specification of the elliptic curves P-192 and P-256 (FIPS 186-4, D.1.2.1 and D.1.2.3), in
    affine coordinates and without reference to the functions of the code. *)
From Verif Require Import Prelude.
Open Scope Z_scope.

(** A curve y^2 = x^3 - 3x + b over the integers modulo p, with its base point and the number of
    bytes of a coordinate. *)
Record shape := { modulus : Z; constant : Z; start_x : Z; start_y : Z; octets : nat }.

Definition nist192 : shape :=
  {| modulus := 6277101735386680763835789423207666416083908700390324961279;
     constant := 0x64210519e59c80e70fa7e9ab72243049feb8deecc146b9b1;
     start_x := 0x188da80eb03090f67cbf20eb43a18800f4ff0afd82ff1012;
     start_y := 0x07192b95ffc8da78631011ed6b24cdd573f977a11e794811;
     octets := 24 |}.

Definition nist256 : shape :=
  {| modulus := 115792089210356248762697446949407573530086143415290314195533631308867097853951;
     constant := 0x5ac635d8aa3a93e7b3ebbd55769886bc651d06b0cc53b0f63bce3c3e27d2604b;
     start_x := 0x6b17d1f2e12c4247f8bce6e563a440f277037d812deb33a0f4a13945d898c296;
     start_y := 0x4fe342e2fe1a7f9b8ee7eb4a7c0f9e162bce33576b315ececbb6406837bf51f5;
     octets := 32 |}.

(** The pair is a point of the curve, with reduced coordinates. *)
Definition on_curve (k : shape) (x y : Z) : Prop :=
  0 <= x < modulus k /\ 0 <= y < modulus k /\
  (y * y) mod modulus k = (x * x * x - 3 * x + constant k) mod modulus k.

(** The elements of the group: the points and the one at infinity. *)
Inductive spot := Origin | Spot (x y : Z).

(** Addition by chord and tangent; [l] is the slope of the line. *)
Inductive sum (k : shape) : spot -> spot -> spot -> Prop :=
| sum_left q : sum k Origin q q
| sum_right q : sum k q Origin q
| sum_vertical x y1 y2 : y1 <> y2 -> sum k (Spot x y1) (Spot x y2) Origin
| sum_flat x : sum k (Spot x 0) (Spot x 0) Origin
| sum_tangent x y l x3 y3 :
    (2 * y * l) mod modulus k = (3 * x * x - 3) mod modulus k ->
    x3 = (l * l - x - x) mod modulus k ->
    y3 = (l * (x - x3) - y) mod modulus k ->
    sum k (Spot x y) (Spot x y) (Spot x3 y3)
| sum_chord x1 y1 x2 y2 l x3 y3 :
    x1 <> x2 ->
    ((x2 - x1) * l) mod modulus k = (y2 - y1) mod modulus k ->
    x3 = (l * l - x1 - x2) mod modulus k ->
    y3 = (l * (x1 - x3) - y1) mod modulus k ->
    sum k (Spot x1 y1) (Spot x2 y2) (Spot x3 y3).

(** [total k n t a r]: [r] is [a] plus [t], 2t, 4t, ... for the binary digits of [n] that are
    one, the least significant first. *)
Inductive total (k : shape) : positive -> spot -> spot -> spot -> Prop :=
| total_last t a r : sum k a t r -> total k 1 t a r
| total_zero n t a t2 r : sum k t t t2 -> total k n t2 a r -> total k (xO n) t a r
| total_one n t a t2 a2 r : sum k a t a2 -> sum k t t t2 -> total k n t2 a2 r -> total k (xI n) t a r.

(** [multiple k n t r]: [r] is [n] times [t]. *)
Definition multiple (k : shape) (n : positive) (t r : spot) : Prop := total k n t Origin r.

(** The number of which the bytes are the little-endian digits. *)
Fixpoint number (l : list N) : Z :=
  match l with
  | [] => 0
  | b :: l => Z.of_N b + 256 * number l
  end.

(** The bytes sent for a coordinate [x]: the little-endian number itself. *)
Definition says (k : shape) (l : list N) (x : Z) : Prop := List.length l = octets k /\ number l = x.

(** The same, or the low bytes of the two's complement form of x - p. *)
Definition mumbles (k : shape) (l : list N) (x : Z) : Prop :=
  says k l x \/
  (List.length l = octets k /\
   exists w, (w <= octets k)%nat /\ number l = (x - modulus k) mod 256 ^ Z.of_nat w).

(** The first and the second coordinate of an encoded public key. *)
Definition first_half (k : shape) (l : list N) : list N := firstn (octets k) l.
Definition second_half (k : shape) (l : list N) : list N := skipn (octets k) l.

(** A public key as every other implementation reads it: a point of the curve, each coordinate
    as a little-endian number. *)
Definition valid_public_key (k : shape) (l : list N) : Prop :=
  List.length l = (2 * octets k)%nat /\
  on_curve k (number (first_half k l)) (number (second_half k l)).
