(** What the text of a Bluetooth address is, independently of the code. *)
From Verif Require Import Prelude.
Open Scope N_scope.

(** A hexadecimal digit character and its value. *)
Inductive hex_digit : N -> N -> Prop :=
| hex_09 d : d < 10 -> hex_digit (48 + d) d
| hex_af d : 10 <= d < 16 -> hex_digit (87 + d) d
| hex_AF d : 10 <= d < 16 -> hex_digit (55 + d) d.

(** The documented form XX:XX:XX:XX:XX:XX, most significant byte first. *)
Inductive hex_pair : list N -> N -> Prop :=
| hex_pair_intro c1 c2 d1 d2 :
    hex_digit c1 d1 -> hex_digit c2 d2 -> hex_pair [c1; c2] (16 * d1 + d2).

Definition six_tokens (pair : list N -> N -> Prop) (s : list N) (a : list N) : Prop :=
  exists t0 t1 t2 t3 t4 t5 b0 b1 b2 b3 b4 b5,
    s = t5 ++ [58] ++ t4 ++ [58] ++ t3 ++ [58] ++ t2 ++ [58] ++ t1 ++ [58] ++ t0 /\
    a = [b0; b1; b2; b3; b4; b5] /\
    pair t0 b0 /\ pair t1 b1 /\ pair t2 b2 /\ pair t3 b3 /\ pair t4 b4 /\ pair t5 b5.

Definition documented : list N -> list N -> Prop := six_tokens hex_pair.

(** The tokens really accepted: also a blank or a sign followed by one digit,
    a minus sign giving the two's complement. *)
Inductive loose_pair : list N -> N -> Prop :=
| loose_hex t b : hex_pair t b -> loose_pair t b
| loose_blank c d1 d : (c = 32 \/ 9 <= c <= 13) -> hex_digit d1 d -> loose_pair [c; d1] d
| loose_plus d1 d : hex_digit d1 d -> loose_pair [43; d1] d
| loose_minus d1 d : hex_digit d1 d -> loose_pair [45; d1] ((256 - d) mod 256).
