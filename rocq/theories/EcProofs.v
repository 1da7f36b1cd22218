(** Lemmas about the elliptic curve keys. *)
From Coq Require Import Setoid Morphisms Znumtheory.
From Verif Require Import Prelude Ec EcSpec.
Open Scope Z_scope.

(** * Congruence modulo a positive number *)

Section Modulo.
Variable p : Z.
Hypothesis big : 1 < p.

Definition eqm (a b : Z) : Prop := a mod p = b mod p.
Notation "a == b" := (eqm a b) (at level 70).

Global Instance eqm_equiv : Equivalence eqm.
Proof. split; unfold eqm; congruence. Qed.

Global Instance eqm_add : Proper (eqm ==> eqm ==> eqm) Z.add.
Proof. intros a b H c d K; unfold eqm in *. rewrite Zplus_mod, H, K, <- Zplus_mod; reflexivity. Qed.

Global Instance eqm_sub : Proper (eqm ==> eqm ==> eqm) Z.sub.
Proof. intros a b H c d K; unfold eqm in *. rewrite Zminus_mod, H, K, <- Zminus_mod; reflexivity. Qed.

Global Instance eqm_mul : Proper (eqm ==> eqm ==> eqm) Z.mul.
Proof. intros a b H c d K; unfold eqm in *. rewrite Zmult_mod, H, K, <- Zmult_mod; reflexivity. Qed.

Lemma eqm_eq a b : a = b -> a == b.
Proof. intros ->; reflexivity. Qed.

Lemma eqm_rem a : Z.rem a p == a.
Proof.
  unfold eqm. pose proof (Z.quot_rem' a p) as Q.
  rewrite Q at 2. rewrite Z.add_comm, Z.mul_comm, Z.mod_add by lia. reflexivity.
Qed.

Lemma eqm_mod a : a mod p == a.
Proof. unfold eqm. rewrite Z.mod_mod by lia. reflexivity. Qed.

Lemma eqm_small a b : 0 <= a < p -> 0 <= b < p -> a == b -> a = b.
Proof. unfold eqm. intros A B. rewrite !Z.mod_small; auto. Qed.

Lemma eqm_rem_inj a b : a == b -> forall x y, x == a -> y == b -> x == y.
Proof. intros H x y X Y. now rewrite X, Y. Qed.

Definition invertible (z : Z) : Prop := exists i, i * z == 1.

Lemma invertible_mul a b : invertible (a * b) -> invertible a /\ invertible b.
Proof.
  intros (i & H). split; [exists (i * b)|exists (i * a)]; rewrite <- H; apply eqm_eq; ring.
Qed.

Lemma invertible_prod a b : invertible a -> invertible b -> invertible (a * b).
Proof.
  intros (i & H) (j & K). exists (i * j).
  rewrite (eqm_eq (i * j * (a * b)) ((i * a) * (j * b))) by ring. rewrite H, K. reflexivity.
Qed.

Lemma invertible_eqm a b : a == b -> invertible a -> invertible b.
Proof. intros E (i & H). exists i. rewrite <- E. exact H. Qed.

Lemma cancel d a b : invertible d -> d * a == d * b -> a == b.
Proof.
  intros (i & H) E.
  assert (A : i * d * a == i * d * b).
  { rewrite (eqm_eq (i * d * a) (i * (d * a))) by ring. rewrite E. apply eqm_eq; ring. }
  rewrite H in A. rewrite (eqm_eq a (1 * a)), (eqm_eq b (1 * b)) by ring. exact A.
Qed.

(** * The inverse *)

Lemma euclid_keeps x : forall n r0 r1 s0 s1 r s,
  euclid n r0 r1 s0 s1 = Some (r, s) -> s0 * x == r0 -> s1 * x == r1 -> s * x == r.
Proof.
  induction n as [|n IH]; intros r0 r1 s0 s1 r s H A B; cbn [euclid] in H;
    destruct (r0 =? 0) eqn:Z0; try discriminate.
  1,2: injection H as <- <-; exact B.
  apply (IH _ _ _ _ _ _ H); [|exact A].
  rewrite (eqm_eq ((s1 - Z.quot r1 r0 * s0) * x) (s1 * x - Z.quot r1 r0 * (s0 * x))) by ring.
  rewrite A, B. reflexivity.
Qed.

Lemma mod_inv_inverse x i : mod_inv x p = Some i -> i * x == 1.
Proof.
  unfold mod_inv, extended_gcd. destruct (euclid _ _ _ _ _) as [[r s]|] eqn:E; try discriminate.
  assert (K : s * x == r).
  { apply (euclid_keeps x _ _ _ _ _ _ _ E); [|apply eqm_eq; ring].
    unfold eqm. rewrite Z.mul_0_l, Z.mod_same by lia. apply Z.mod_0_l; lia. }
  destruct (0 <=? r); destruct (_ =? 1) eqn:G; try discriminate; bsplit; intros H; injection H as <-;
    rewrite eqm_rem.
  - rewrite K. now rewrite G.
  - rewrite (eqm_eq (- s * x) (0 - s * x)) by ring. rewrite K. apply eqm_eq; lia.
Qed.

End Modulo.

(** Every two rounds at least halve the first number, so the fuel suffices. *)
Lemma rem_by_quot a b : a - Z.quot a b * b = Z.rem a b.
Proof. pose proof (Z.quot_rem' a b) as Q. rewrite Q at 1. rewrite (Z.mul_comm b). apply Z.add_simpl_l. Qed.

Lemma rem_halves r a : a <> 0 -> Z.abs a < Z.abs r -> Z.abs a + Z.abs (Z.rem r a) <= Z.abs r.
Proof.
  intros NZ LA. rewrite <- Z.rem_abs by exact NZ.
  pose proof (Z.quot_rem' (Z.abs r) (Z.abs a)) as Q.
  assert (G : 1 <= Z.quot (Z.abs r) (Z.abs a)).
  { apply Z.quot_le_lower_bound; [lia|]. rewrite Z.mul_1_r. apply Z.lt_le_incl, LA. }
  rewrite Q at 2. apply Z.add_le_mono_r.
  rewrite <- (Z.mul_1_r (Z.abs a)) at 1. apply Z.mul_le_mono_nonneg_l; [apply Z.abs_nonneg|exact G].
Qed.

Lemma euclid_ends : forall n r0 r1 s0 s1,
  Z.abs r0 < 2 ^ Z.of_nat n -> euclid (2 * n) r0 r1 s0 s1 <> None.
Proof.
  induction n as [|n IH]; intros r0 r1 s0 s1 B.
  - change (2 ^ Z.of_nat 0) with 1 in B. cbn. destruct (r0 =? 0) eqn:Z0; [discriminate|bsplit; lia].
  - replace (2 * S n)%nat with (S (S (2 * n))) by lia. cbn [euclid].
    destruct (r0 =? 0) eqn:Z0; [discriminate|]. bsplit.
    rewrite !rem_by_quot.
    destruct (Z.rem r1 r0 =? 0) eqn:Z1; [discriminate|]. bsplit.
    pose proof (Z.rem_bound_abs r1 r0 Z0) as LA.
    pose proof (Z.rem_bound_abs r0 (Z.rem r1 r0) Z1) as LB.
    pose proof (rem_halves r0 (Z.rem r1 r0) Z1 LA) as AB.
    apply IH.
    rewrite Nat2Z.inj_succ, Z.pow_succ_r in B by apply Nat2Z.is_nonneg.
    revert B LA LB AB. generalize (Z.rem r0 (Z.rem r1 r0)) as b. generalize (Z.rem r1 r0) as a.
    generalize (2 ^ Z.of_nat n) as q. clear. intros. lia.
Qed.

Lemma euclid_more : forall n m r0 r1 s0 s1 v,
  euclid n r0 r1 s0 s1 = Some v -> (n <= m)%nat -> euclid m r0 r1 s0 s1 = Some v.
Proof.
  induction n as [|n IH]; intros m r0 r1 s0 s1 v H LE; destruct m; cbn [euclid] in *;
    destruct (r0 =? 0); try discriminate; auto; try lia.
  apply IH; auto; lia.
Qed.

(** The extended Euclidean algorithm always ends. *)
Lemma extended_gcd_ends x m : 0 < m -> extended_gcd x m <> None.
Proof.
  intros M. unfold extended_gcd. rewrite Z.abs_eq by lia.
  destruct (euclid _ _ _ _ _) as [[r s]|] eqn:E; [discriminate|]. exfalso.
  pose proof (Z.log2_nonneg m) as LN. pose proof (Z.log2_spec m M) as LS.
  remember (Z.to_nat (2 * Z.log2 m + 3)) as f.
  assert (F : f = S (2 * S (Z.to_nat (Z.log2 m)))) by lia.
  rewrite F in E. cbn [euclid] in E. destruct (m =? 0) eqn:Z0; [discriminate|].
  rewrite rem_by_quot in E. bsplit.
  pose proof (Z.rem_bound_abs x m Z0) as LA. rewrite (Z.abs_eq m) in LA by lia.
  revert E. apply euclid_ends.
  rewrite Nat2Z.inj_succ, Z2Nat.id by lia. eapply Z.lt_trans; [exact LA|apply LS].
Qed.

(** * Points *)

(** The curve of the specification for a curve of the code. *)
Definition shape_of (c : curve) : shape := match c with P192 => nist192 | P256 => nist256 end.

Lemma modulus_of c : modulus (shape_of c) = prime c.
Proof. destruct c; reflexivity. Qed.

Lemma octets_of c : octets (shape_of c) = key_size c.
Proof. destruct c; reflexivity. Qed.

Lemma prime_big c : 1 < prime c.
Proof. destruct c; reflexivity. Qed.

(** Congruence modulo the prime of the curve is written ==. *)
Section Curve.
Variable c : curve.
Let p := prime c.
Let k := shape_of c.
Notation "a == b" := (eqm p a b) (at level 70).

Lemma big : 1 < p.
Proof. apply prime_big. Qed.

Definition eqn (x y : Z) : Prop := y * y == x * x * x - 3 * x + constant k.

(** A chord through two points of the curve meets it in a third one. *)
Lemma chord_on x1 y1 x2 y2 l x3 :
  invertible p (x2 - x1) -> eqn x1 y1 -> eqn x2 y2 ->
  (x2 - x1) * l == y2 - y1 -> x3 == l * l - x1 - x2 -> eqn x3 (l * (x1 - x3) - y1).
Proof.
  unfold eqn. intros I E1 E2 L X.
  assert (Y2 : y2 == y1 + l * (x2 - x1)).
  { rewrite (eqm_eq p (l * (x2 - x1)) ((x2 - x1) * l)) by ring. rewrite L. apply eqm_eq; ring. }
  assert (S : l * (y1 + y2) == x1 * x1 + x1 * x2 + x2 * x2 - 3).
  { apply (cancel p (x2 - x1) _ _ I).
    rewrite (eqm_eq p ((x2 - x1) * (l * (y1 + y2))) ((x2 - x1) * l * (y1 + y2))) by ring.
    rewrite L. rewrite (eqm_eq p ((y2 - y1) * (y1 + y2)) (y2 * y2 - y1 * y1)) by ring.
    rewrite E1, E2. apply eqm_eq; ring. }
  rewrite Y2 in S.
  assert (T : 2 * l * y1 == x1 * x1 + x1 * x2 + x2 * x2 - 3 - l * l * (x2 - x1)).
  { rewrite <- S. apply eqm_eq; ring. }
  assert (LL : l * l == x1 + x2 + x3) by (rewrite X; apply eqm_eq; ring).
  rewrite LL in T.
  rewrite (eqm_eq p ((l * (x1 - x3) - y1) * (l * (x1 - x3) - y1))
             (l * l * ((x1 - x3) * (x1 - x3)) - 2 * l * y1 * (x1 - x3) + y1 * y1)) by ring.
  rewrite LL, T, E1. apply eqm_eq; ring.
Qed.

(** The tangent at a point of the curve meets it in another one. *)
Lemma tangent_on x y l x3 :
  eqn x y -> 2 * y * l == 3 * x * x - 3 -> x3 == l * l - x - x -> eqn x3 (l * (x - x3) - y).
Proof.
  unfold eqn. intros E L X.
  assert (LL : l * l == x + x + x3) by (rewrite X; apply eqm_eq; ring).
  rewrite (eqm_eq p ((l * (x - x3) - y) * (l * (x - x3) - y))
             (l * l * ((x - x3) * (x - x3)) - 2 * y * l * (x - x3) + y * y)) by ring.
  rewrite LL, L, E. apply eqm_eq; ring.
Qed.

(** A point of the code stands for a point of the specification. *)
Definition reduced (v : Z) : Prop := 0 <= v < p.

Definition stands (a : point) (s : spot) : Prop :=
  match a, s with
  | Infinite, Origin => True
  | Finite X Y Z, Spot x y =>
      invertible p Z /\ reduced x /\ reduced y /\ X == x * Z ^ 2 /\ Y == y * Z ^ 3
  | _, _ => False
  end.

Definition curved (s : spot) : Prop :=
  match s with Origin => True | Spot x y => eqn x y end.

Lemma reduced_mod v : reduced (v mod p).
Proof. apply Z.mod_pos_bound. pose proof big; lia. Qed.

Lemma same_reduced a b : reduced a -> reduced b -> a == b -> a = b.
Proof. apply eqm_small. Qed.

(** Remainders of truncated division are equal when congruent only if their signs agree; the
    other direction always holds. *)
Lemma rem_same a b : Z.rem a p = Z.rem b p -> a == b.
Proof.
  pose proof big as B. intros H. rewrite <- (eqm_rem p B a), <- (eqm_rem p B b). now rewrite H.
Qed.

Ltac ringm := apply eqm_eq; ring.

Lemma double_stands a s r :
  stands a s -> double c a = r ->
  match r with Finite _ _ z => invertible p z | Infinite => match a with Infinite => True | _ => False end end ->
  exists s2, stands r s2 /\ sum k s s s2 /\ (curved s -> curved s2).
Proof.
  pose proof big as B. destruct a as [|X Y Z], s as [|x y]; cbn [stands]; try contradiction.
  - intros _ <- _. cbn [double]. exists Origin. repeat split. constructor.
  - intros (IZ & RX & RY & EX & EY) D IR. cbn [double] in D.
    destruct (Y =? 0) eqn:Y0; [subst r; contradiction|].
    subst r. cbn [stands].
    set (S := 4 * X * Y ^ 2) in *. set (M := 3 * X ^ 2 + coefficient_a * Z ^ 4) in *.
    change (prime c) with p in IR |- *.
    assert (IYZ : invertible p (2 * Y * Z)).
    { apply (invertible_eqm p (Z.rem (2 * Y * Z) p)); [apply eqm_rem; exact B|exact IR]. }
    assert (I2Y : invertible p (2 * y)).
    { assert (E : 2 * Y * Z == 2 * y * (Z ^ 4)) by (rewrite EY; ringm).
      apply (invertible_eqm p _ _ E), invertible_mul in IYZ. apply IYZ. }
    destruct I2Y as (i & Hi).
    set (l := i * (3 * x * x - 3)).
    assert (L : 2 * y * l == 3 * x * x - 3).
    { unfold l. rewrite (eqm_eq p (2 * y * (i * (3 * x * x - 3))) (i * (2 * y) * (3 * x * x - 3))) by ring.
      rewrite Hi. ringm. }
    set (x3 := (l * l - x - x) mod p). set (y3 := (l * (x - x3) - y) mod p).
    assert (X3 : x3 == l * l - x - x) by (apply eqm_mod; exact B).
    assert (Y3 : y3 == l * (x - x3) - y) by (apply eqm_mod; exact B).
    exists (Spot x3 y3). split; [|split].
    + split; [|split; [apply reduced_mod|split; [apply reduced_mod|]]].
      { exact IR. }
      assert (EM : M == 2 * y * l * Z ^ 4).
      { rewrite L. unfold M, coefficient_a. rewrite (eqm_eq p (X ^ 2) (X * X)) by ring. rewrite EX. ringm. }
      assert (ES : S == 4 * x * (y * y) * Z ^ 8).
      { unfold S. rewrite (eqm_eq p (Y ^ 2) (Y * Y)) by ring. rewrite EX, EY. ringm. }
      assert (RX3 : M ^ 2 - 2 * S == x3 * (2 * y * Z ^ 4) ^ 2).
      { rewrite X3. rewrite (eqm_eq p (M ^ 2) (M * M)) by ring. rewrite EM, ES. ringm. }
      assert (EZ : Z.rem (2 * Y * Z) p == 2 * y * Z ^ 4) by (rewrite eqm_rem by exact B; rewrite EY; ringm).
      split.
      * rewrite eqm_rem by exact B. rewrite RX3.
        rewrite (eqm_eq p (Z.rem (2 * Y * Z) p ^ 2) (Z.rem (2 * Y * Z) p * Z.rem (2 * Y * Z) p)) by ring.
        rewrite EZ. ringm.
      * rewrite eqm_rem by exact B. rewrite RX3, Y3.
        rewrite (eqm_eq p (Z.rem (2 * Y * Z) p ^ 3)
                   (Z.rem (2 * Y * Z) p * Z.rem (2 * Y * Z) p * Z.rem (2 * Y * Z) p)) by ring.
        rewrite EZ. rewrite EM, ES.
        rewrite (eqm_eq p (Y ^ 4) (Y * Y * (Y * Y))) by ring. rewrite EY. ringm.
    + apply sum_tangent with (l := l); unfold k; rewrite modulus_of; fold p;
        [exact L|reflexivity|reflexivity].
    + cbn [curved]. intros C. pose proof (tangent_on _ _ _ _ C L X3) as T.
      unfold eqn in *. rewrite Y3. exact T.
Qed.

(** The two points have different first coordinates, or the first one is at infinity. *)
Definition apart (a b : point) : bool :=
  match a, b with
  | _, Infinite => false
  | Infinite, _ => true
  | Finite x1 _ z1, Finite x2 _ z2 =>
      negb (Z.rem (x1 * z2 ^ 2) p =? Z.rem (x2 * z1 ^ 2) p)
  end.

Definition solid (a : point) : Prop :=
  match a with Infinite => False | Finite _ _ z => invertible p z end.

Lemma add_solid a b : apart a b = true -> solid (add c a b) -> (a = Infinite \/ solid a) /\ solid b.
Proof.
  pose proof big as B.
  destruct a as [|x1 y1 z1], b as [|x2 y2 z2]; cbn [apart add]; try discriminate; auto.
  fold p. intros AP. apply negb_true_iff in AP. rewrite AP. cbn [solid].
  intros I. apply (invertible_eqm p _ _ (eqm_rem p B _)) in I.
  apply invertible_mul in I as [I I2]. apply invertible_mul in I as [_ I1]. auto.
Qed.

Lemma double_solid a : solid (double c a) -> solid a.
Proof.
  pose proof big as B. destruct a as [|x y z]; cbn [double]; auto.
  destruct (y =? 0); [contradiction|]. cbn [solid]. fold p.
  intros I. apply (invertible_eqm p _ _ (eqm_rem p B _)) in I.
  apply invertible_mul in I as [_ I]. exact I.
Qed.

Lemma add_stands a b s t :
  stands a s -> stands b t -> apart a b = true -> solid (add c a b) ->
  exists r, stands (add c a b) r /\ sum k s t r /\ (curved s -> curved t -> curved r).
Proof.
  pose proof big as B.
  destruct a as [|X1 Y1 Z1], b as [|X2 Y2 Z2]; cbn [apart]; try discriminate.
  { destruct s; cbn [stands]; try contradiction. intros _ T _ _. exists t.
    split; [exact T|]. split; [constructor|auto]. }
  destruct s as [|x1 y1], t as [|x2 y2]; cbn [stands]; try contradiction.
  intros (I1 & RX1 & RY1 & EX1 & EY1) (I2 & RX2 & RY2 & EX2 & EY2) AP SO.
  apply negb_true_iff in AP. cbn [add] in *. fold p in SO |- *. rewrite AP in *.
  apply Z.eqb_neq in AP. cbn [solid] in SO. cbn [stands].
  set (W := Z1 * Z2).
  assert (EU1 : Z.rem (X1 * Z2 ^ 2) p == x1 * W ^ 2)
    by (rewrite eqm_rem by exact B; rewrite EX1; unfold W; apply eqm_eq; ring).
  assert (EU2 : Z.rem (X2 * Z1 ^ 2) p == x2 * W ^ 2)
    by (rewrite eqm_rem by exact B; rewrite EX2; unfold W; apply eqm_eq; ring).
  assert (ES1 : Z.rem (Y1 * Z2 ^ 3) p == y1 * W ^ 3)
    by (rewrite eqm_rem by exact B; rewrite EY1; unfold W; apply eqm_eq; ring).
  assert (ES2 : Z.rem (Y2 * Z1 ^ 3) p == y2 * W ^ 3)
    by (rewrite eqm_rem by exact B; rewrite EY2; unfold W; apply eqm_eq; ring).
  set (U1 := Z.rem (X1 * Z2 ^ 2) p) in *. set (U2 := Z.rem (X2 * Z1 ^ 2) p) in *.
  set (S1 := Z.rem (Y1 * Z2 ^ 3) p) in *. set (S2 := Z.rem (Y2 * Z1 ^ 3) p) in *.
  set (H := U2 - U1) in *. set (R := S2 - S1) in *.
  set (H3 := Z.rem (H ^ 3) p) in *. set (UH := Z.rem (U1 * H ^ 2) p) in *.
  set (Z3 := Z.rem (H * Z1 * Z2) p) in *.
  assert (EH : H == (x2 - x1) * W ^ 2) by (unfold H; rewrite EU1, EU2; apply eqm_eq; ring).
  assert (ER : R == (y2 - y1) * W ^ 3) by (unfold R; rewrite ES1, ES2; apply eqm_eq; ring).
  assert (EZ : Z3 == (x2 - x1) * W ^ 3).
  { unfold Z3. rewrite eqm_rem by exact B. rewrite EH. unfold W. apply eqm_eq; ring. }
  assert (ID : invertible p (x2 - x1)).
  { apply (invertible_eqm p _ _ EZ), invertible_mul in SO. apply SO. }
  destruct ID as (i & Hi).
  set (l := i * (y2 - y1)).
  assert (L : (x2 - x1) * l == y2 - y1).
  { unfold l. rewrite (eqm_eq p ((x2 - x1) * (i * (y2 - y1))) (i * (x2 - x1) * (y2 - y1))) by ring.
    rewrite Hi. apply eqm_eq; ring. }
  assert (EH3 : H3 == (x2 - x1) * (x2 - x1) * (x2 - x1) * W ^ 6).
  { unfold H3. rewrite eqm_rem by exact B. rewrite (eqm_eq p (H ^ 3) (H * H * H)) by ring.
    rewrite EH. apply eqm_eq; ring. }
  assert (EUH : UH == x1 * (x2 - x1) * (x2 - x1) * W ^ 6).
  { unfold UH. rewrite eqm_rem by exact B. rewrite (eqm_eq p (H ^ 2) (H * H)) by ring.
    rewrite EH, EU1. apply eqm_eq; ring. }
  assert (ERL : R == (x2 - x1) * l * W ^ 3) by (rewrite L; exact ER).
  set (x3 := (l * l - x1 - x2) mod p). set (y3 := (l * (x1 - x3) - y1) mod p).
  assert (X3 : x3 == l * l - x1 - x2) by (apply eqm_mod; exact B).
  assert (Y3 : y3 == l * (x1 - x3) - y1) by (apply eqm_mod; exact B).
  assert (XX : R ^ 2 - H3 - 2 * UH == x3 * ((x2 - x1) * W ^ 3) ^ 2).
  { rewrite (eqm_eq p (R ^ 2) (R * R)) by ring. rewrite ERL, EH3, EUH, X3. apply eqm_eq; ring. }
  exists (Spot x3 y3). split; [|split].
  - split; [exact SO|]. split; [apply reduced_mod|]. split; [apply reduced_mod|]. split.
    + rewrite eqm_rem by exact B. rewrite XX. rewrite (eqm_eq p (Z3 ^ 2) (Z3 * Z3)) by ring.
      rewrite EZ. apply eqm_eq; ring.
    + rewrite eqm_rem by exact B. rewrite XX. rewrite (eqm_eq p (Z3 ^ 3) (Z3 * Z3 * Z3)) by ring.
      rewrite EZ, ERL, EUH, EH3, ES1, Y3. apply eqm_eq; ring.
  - apply sum_chord with (l := l); unfold k; rewrite ?modulus_of; fold p;
      [|exact L|reflexivity|reflexivity].
    intros E. apply AP. unfold U1, U2.
    rewrite E in EZ. exfalso. apply (invertible_eqm p _ _ EZ), invertible_mul in SO.
    destruct SO as [(j & Hj) _]. unfold eqm in Hj.
    replace (j * (x2 - x2)) with 0 in Hj by ring. rewrite Z.mod_0_l, Z.mod_1_l in Hj; [discriminate|lia|lia].
  - cbn [curved]. intros C1 C2.
    assert (T : eqn x3 (l * (x1 - x3) - y1)).
    { apply (chord_on x1 y1 x2 y2); auto. exists i; exact Hi. }
    unfold eqn in *. rewrite Y3. exact T.
Qed.

(** Every addition of the loop is one of points apart and no doubled point is at infinity. *)
Fixpoint smooth (digits : positive) (addend result : point) : bool :=
  match digits with
  | xH => apart result addend
  | xO i => smooth i (double c addend) result
  | xI i => apart result addend && smooth i (double c addend) (add c result addend)
  end.

Lemma apart_finite a b : apart a b = true -> add c a b <> Infinite.
Proof.
  destruct a as [|x1 y1 z1], b as [|x2 y2 z2]; cbn [apart add]; try discriminate.
  fold p. intros AP. apply negb_true_iff in AP. rewrite AP. discriminate.
Qed.

Lemma smooth_finite : forall d t a, smooth d t a = true -> t <> Infinite.
Proof.
  induction d as [d IH|d IH|]; intros t a S; cbn [smooth] in S; bsplit; intros ->.
  - destruct a; discriminate.
  - apply (IH _ _ S). reflexivity.
  - destruct a; discriminate.
Qed.

Lemma loop_solid : forall d t a,
  smooth d t a = true -> solid (multiply_loop c d t a) -> solid t /\ (a = Infinite \/ solid a).
Proof.
  induction d as [d IH|d IH|]; intros t a S F; cbn [smooth multiply_loop] in *; bsplit.
  - destruct (IH _ _ H0 F) as [T [A|A]].
    + apply apart_finite in H. contradiction.
    + destruct (add_solid _ _ H A). split; [|auto]. apply double_solid; exact T.
  - destruct (IH _ _ S F) as [T A]. split; [apply double_solid; exact T|exact A].
  - destruct (add_solid _ _ S F). auto.
Qed.

Lemma loop_total : forall d t a t' a',
  smooth d t a = true -> solid (multiply_loop c d t a) -> stands t t' -> stands a a' ->
  curved t' -> curved a' ->
  exists r, stands (multiply_loop c d t a) r /\ total k d t' a' r /\ curved r.
Proof.
  induction d as [d IH|d IH|]; intros t a t' a' S F ST SA CT CA; cbn [smooth multiply_loop] in *; bsplit.
  - destruct (loop_solid _ _ _ H0 F) as [T A].
    assert (SOA : solid (add c a t)) by (destruct A as [A|A]; [apply apart_finite in H; contradiction|exact A]).
    destruct (add_stands _ _ _ _ SA ST H SOA) as (a2 & SA2 & SUM & C2).
    destruct (double_stands t t' _ ST eq_refl) as (t2 & ST2 & SUM2 & C3).
    { destruct (double c t); [destruct T|exact T]. }
    destruct (IH _ _ _ _ H0 F ST2 SA2 (C3 CT) (C2 CA CT)) as (r & SR & TR & CR).
    exists r. split; [exact SR|]. split; [|exact CR]. eapply total_one; eauto.
  - destruct (loop_solid _ _ _ S F) as [T A].
    destruct (double_stands t t' _ ST eq_refl) as (t2 & ST2 & SUM2 & C3).
    { destruct (double c t); [destruct T|exact T]. }
    destruct (IH _ _ _ _ S F ST2 SA (C3 CT) CA) as (r & SR & TR & CR).
    exists r. split; [exact SR|]. split; [|exact CR]. eapply total_zero; eauto.
  - destruct (add_stands _ _ _ _ SA ST S F) as (r & SR & SUM & C2).
    exists r. split; [exact SR|]. split; [|exact (C2 CA CT)]. constructor. exact SUM.
Qed.

(** * Affine coordinates and bytes *)

Lemma to_affine_stands a x y :
  to_affine c a = At x y ->
  solid a /\ - p < x < p /\ - p < y < p /\
  forall s, stands a s -> s = Spot (x mod p) (y mod p).
Proof.
  pose proof big as B. destruct a as [|X Y Z]; cbn [to_affine]; try discriminate.
  fold p. destruct (mod_inv Z p) as [i|] eqn:I; try discriminate.
  intros H. injection H as <- <-.
  pose proof (mod_inv_inverse p B _ _ I) as Hi.
  assert (R : forall v, - p < Z.rem v p < p).
  { intros v. pose proof (Z.rem_bound_abs v p ltac:(lia)) as RB. rewrite (Z.abs_eq p) in RB by lia.
    revert RB. generalize (Z.rem v p). intros. lia. }
  split; [exists i; exact Hi|]. split; [apply R|]. split; [apply R|].
  intros [|x y]; cbn [stands]; try contradiction. intros (_ & RX & RY & EX & EY).
  f_equal.
  - rewrite <- (Z.mod_small x p RX). change (x == Z.rem (X * i ^ 2) p).
    rewrite eqm_rem by exact B. rewrite EX.
    rewrite (eqm_eq p (x * Z ^ 2 * i ^ 2) (x * ((i * Z) * (i * Z)))) by ring. rewrite Hi. apply eqm_eq; ring.
  - rewrite <- (Z.mod_small y p RY). change (y == Z.rem (Y * i ^ 3) p).
    rewrite eqm_rem by exact B. rewrite EY.
    rewrite (eqm_eq p (y * Z ^ 3 * i ^ 3) (y * ((i * Z) * (i * Z) * (i * Z)))) by ring. rewrite Hi. apply eqm_eq; ring.
Qed.

End Curve.

Lemma low_bytes_length n : forall v, List.length (low_bytes n v) = n.
Proof. induction n; intros v; cbn; auto. Qed.

Lemma low_bytes_bytes n : forall v, Forall (fun b => is_byte b = true) (low_bytes n v).
Proof.
  induction n as [|n IH]; intros v; cbn [low_bytes]; constructor; auto.
  unfold is_byte. apply N.ltb_lt. pose proof (Z.mod_pos_bound v 256). lia.
Qed.

Lemma number_unsigned l : number l = unsigned l.
Proof. induction l as [|b l IH]; cbn; [reflexivity|now rewrite IH]. Qed.

Lemma low_bytes_number n : forall v, number (low_bytes n v) = v mod 256 ^ Z.of_nat n.
Proof.
  induction n as [|n IH]; intros v.
  - cbn. rewrite Z.mod_1_r. reflexivity.
  - cbn [low_bytes number]. rewrite IH, Nat2Z.inj_succ, Z.pow_succ_r by lia.
    rewrite Z2N.id by (apply Z.mod_pos_bound; lia).
    rewrite Z.rem_mul_r by (try lia; apply Z.pow_pos_nonneg; lia). reflexivity.
Qed.

Lemma low_bytes_firstn m : forall n v, (m <= n)%nat -> firstn m (low_bytes n v) = low_bytes m v.
Proof.
  induction m as [|m IH]; intros n v LE; [destruct n; reflexivity|].
  destruct n as [|n]; [lia|]. cbn [low_bytes firstn]. f_equal. apply IH. lia.
Qed.

Lemma number_app a b : number (a ++ b) = number a + 256 ^ Z.of_nat (List.length a) * number b.
Proof.
  induction a as [|x a IH]; [cbn [app number List.length]; change (256 ^ Z.of_nat 0) with 1; ring|].
  cbn [app number List.length]. rewrite IH, Nat2Z.inj_succ, Z.pow_succ_r by lia. ring.
Qed.

Lemma number_zeros n : number (repeat 0%N n) = 0.
Proof. induction n as [|n IH]; [reflexivity|]. cbn [repeat number]. rewrite IH. reflexivity. Qed.

Lemma resize_length n l : List.length (resize n l) = n.
Proof. unfold resize. rewrite app_length, firstn_length, repeat_length. lia. Qed.

(** The bytes of a number, brought to a given size. *)
Lemma resize_number n v :
  number (resize n (to_signed_bytes v)) = v mod 256 ^ Z.of_nat (Nat.min n (width v)).
Proof.
  unfold resize, to_signed_bytes. rewrite number_app, number_zeros, Z.mul_0_r, Z.add_0_r.
  destruct (Nat.le_gt_cases n (width v)) as [LE|GT].
  - rewrite low_bytes_firstn, low_bytes_number, Nat.min_l by exact LE. reflexivity.
  - rewrite firstn_all2 by (rewrite low_bytes_length; lia).
    rewrite low_bytes_number, Nat.min_r by lia. reflexivity.
Qed.

Lemma width_fits v : 0 <= v -> v < 256 ^ Z.of_nat (width v).
Proof.
  intros V. unfold width, bits. destruct (v <? 0) eqn:N; bsplit; [lia|].
  destruct (v =? 0) eqn:Z0; bsplit; [subst; reflexivity|].
  pose proof (Z.log2_spec v ltac:(lia)) as [_ L]. pose proof (Z.log2_nonneg v) as LN.
  eapply Z.lt_le_trans; [exact L|].
  rewrite Z2Nat.id by (apply Z.add_nonneg_nonneg; [apply Z.div_pos|]; lia).
  change 256 with (2 ^ 8). rewrite <- Z.pow_mul_r; [|lia|apply Z.add_nonneg_nonneg; [apply Z.div_pos|]; lia].
  apply Z.pow_le_mono_r; [lia|].
  pose proof (Z.div_mod (Z.log2 v + 1) 8 ltac:(lia)) as D.
  pose proof (Z.mod_pos_bound (Z.log2 v + 1) 8 ltac:(lia)). lia.
Qed.

Lemma coordinate_bytes c v :
  - prime c < v < prime c ->
  List.length (resize (key_size c) (to_signed_bytes v)) = octets (shape_of c) /\
  (0 <= v -> number (resize (key_size c) (to_signed_bytes v)) = v mod prime c) /\
  mumbles (shape_of c) (resize (key_size c) (to_signed_bytes v)) (v mod prime c).
Proof.
  intros R. assert (LE : List.length (resize (key_size c) (to_signed_bytes v)) = octets (shape_of c))
    by (rewrite resize_length, octets_of; reflexivity).
  assert (POS : 0 <= v -> number (resize (key_size c) (to_signed_bytes v)) = v mod prime c).
  { intros V. rewrite resize_number, !Z.mod_small; [reflexivity|lia|]. split; [exact V|].
    destruct (Nat.min_dec (key_size c) (width v)) as [-> | ->]; [|apply width_fits; exact V].
    eapply Z.lt_trans; [apply R|]. destruct c; reflexivity. }
  split; [exact LE|]. split; [exact POS|].
  destruct (Z.le_gt_cases 0 v) as [V|V].
  - left. split; [exact LE|]. apply POS, V.
  - right. split; [exact LE|]. exists (Nat.min (key_size c) (width v)).
    split; [rewrite octets_of; lia|]. rewrite resize_number, modulus_of.
    replace (v mod prime c - prime c) with v; [reflexivity|].
    rewrite <- (Z.mod_add v 1 (prime c)) by (pose proof (prime_big c); lia).
    rewrite Z.mod_small by lia. ring.
Qed.

Lemma firstn_exact {A} n (a b : list A) : List.length a = n -> firstn n (a ++ b) = a.
Proof. intros <-. rewrite firstn_app, Nat.sub_diag, firstn_all. cbn. apply app_nil_r. Qed.

Lemma skipn_exact {A} n (a b : list A) : List.length a = n -> skipn n (a ++ b) = b.
Proof. intros <-. rewrite skipn_app, Nat.sub_diag, skipn_all. reflexivity. Qed.

(** The bytes of a product, when there are any. *)
Lemma product_bytes c x y d bytes :
  on_curve (shape_of c) x y ->
  smooth c d (from_affine x y) Infinite = true ->
  to_bytes c (multiply c (from_affine x y) (Zpos d)) = Some bytes ->
  exists x3 y3, multiple (shape_of c) d (Spot x y) (Spot x3 y3) /\ on_curve (shape_of c) x3 y3 /\
    List.length bytes = (2 * octets (shape_of c))%nat /\
    mumbles (shape_of c) (first_half (shape_of c) bytes) x3 /\
    mumbles (shape_of c) (second_half (shape_of c) bytes) y3.
Proof.
  intros (RX & RY & ON) SM. rewrite modulus_of in *. unfold to_bytes. cbn [multiply].
  destruct (to_affine c _) as [|u v|] eqn:A; try discriminate. intros H. injection H as <-.
  destruct (to_affine_stands _ _ _ _ A) as (SO & RU & RV & SP).
  destruct (loop_total c d (from_affine x y) Infinite (Spot x y) Origin SM SO) as (s & ST & TO & CU).
  { cbn [stands from_affine]. split.
    - exists 1. apply eqm_eq. reflexivity.
    - split; [exact RX|]. split; [exact RY|]. split; apply eqm_eq; ring. }
  { exact Logic.I. }
  { exact ON. }
  { exact Logic.I. }
  rewrite (SP _ ST) in TO, CU.
  exists (u mod prime c), (v mod prime c).
  assert (P0 : 0 < prime c) by (pose proof (prime_big c); lia).
  destruct (coordinate_bytes c u RU) as (L1 & _ & M1). destruct (coordinate_bytes c v RV) as (L2 & _ & M2).
  split; [exact TO|]. split; [|split; [|split]].
  - unfold on_curve. rewrite modulus_of. split; [apply Z.mod_pos_bound, P0|]. split; [apply Z.mod_pos_bound, P0|].
    exact CU.
  - rewrite app_length, L1, L2. lia.
  - unfold first_half. rewrite firstn_exact by exact L1. exact M1.
  - unfold second_half. rewrite skipn_exact by exact L1. exact M2.
Qed.

Ltac zb :=
  repeat match goal with
  | H : (_ <? _)%Z = true |- _ => apply Z.ltb_lt in H
  | H : (_ <? _)%Z = false |- _ => apply Z.ltb_ge in H
  | H : (_ <=? _)%Z = true |- _ => apply Z.leb_le in H
  | H : (_ <=? _)%Z = false |- _ => apply Z.leb_gt in H
  | H : (_ =? _)%Z = true |- _ => apply Z.eqb_eq in H
  | H : (_ =? _)%Z = false |- _ => apply Z.eqb_neq in H
  end.

(** * Private keys *)

Lemma number_bound l : Forall (fun b => is_byte b = true) l -> 0 <= number l < 256 ^ Z.of_nat (List.length l).
Proof.
  induction 1 as [|b l B F IH]; [cbn; lia|].
  cbn [number List.length]. rewrite Nat2Z.inj_succ, Z.pow_succ_r by lia.
  unfold is_byte in B. apply N.ltb_lt in B. lia.
Qed.

Lemma half_power n : 0 < n -> 2 * 2 ^ (8 * n - 1) = 256 ^ n.
Proof.
  intros N. rewrite <- Z.pow_succ_r by lia. replace (Z.succ (8 * n - 1)) with (8 * n) by lia.
  rewrite Z.pow_mul_r by lia. reflexivity.
Qed.

Lemma two_power n : 0 <= n -> 2 ^ (8 * n) = 256 ^ n.
Proof. intros N. rewrite Z.pow_mul_r by lia. reflexivity. Qed.

(** Numbers without the top bit are read as they are. *)
Lemma signed_small l :
  number l < 2 ^ (8 * Z.of_nat (List.length l) - 1) -> from_signed_bytes l = number l.
Proof.
  unfold from_signed_bytes. rewrite number_unsigned. intros H.
  destruct (_ <=? _) eqn:L; zb; [lia|]. rewrite andb_false_r. reflexivity.
Qed.

Lemma signed_large l :
  l <> [] -> 2 ^ (8 * Z.of_nat (List.length l) - 1) <= number l ->
  from_signed_bytes l = number l - 256 ^ Z.of_nat (List.length l).
Proof.
  unfold from_signed_bytes. rewrite number_unsigned. intros NE H.
  rewrite two_power by lia.
  destruct (0 <? _) eqn:L0; zb.
  - destruct (_ <=? _) eqn:L; zb; [reflexivity|lia].
  - destruct l; [congruence|]. cbn [List.length] in L0. lia.
Qed.

Lemma width_le v n : 0 <= v < 2 ^ (8 * Z.of_nat n - 1) -> (0 < n)%nat -> (width v <= n)%nat.
Proof.
  intros [V B] N. unfold width, bits. destruct (v <? 0) eqn:Q; zb; [lia|].
  destruct (v =? 0) eqn:Z0; zb; [change (0 / 8 + 1) with 1; lia|].
  assert (L : Z.log2 v < 8 * Z.of_nat n - 1) by (apply Z.log2_lt_pow2; lia).
  pose proof (Z.log2_nonneg v) as LN.
  pose proof (Z.div_mod (Z.log2 v + 1) 8 ltac:(lia)) as D.
  pose proof (Z.mod_pos_bound (Z.log2 v + 1) 8 ltac:(lia)). lia.
Qed.

Lemma width_gt v n : 2 ^ (8 * Z.of_nat n - 1) <= v -> (0 < n)%nat -> (n < width v)%nat.
Proof.
  intros B N. assert (V : 0 < v) by (eapply Z.lt_le_trans; [|exact B]; apply Z.pow_pos_nonneg; lia).
  unfold width, bits. destruct (v <? 0) eqn:Q; zb; [lia|].
  destruct (v =? 0) eqn:Z0; zb; [lia|].
  assert (L : 8 * Z.of_nat n - 1 <= Z.log2 v) by (apply Z.log2_le_pow2; lia).
  pose proof (Z.div_mod (Z.log2 v + 1) 8 ltac:(lia)) as D.
  pose proof (Z.mod_pos_bound (Z.log2 v + 1) 8 ltac:(lia)). lia.
Qed.

Definition bytes_of (n : nat) (l : list N) : Prop := List.length l = n /\ Forall (fun b => is_byte b = true) l.

(** The magnitude of the random number, at least one. *)
Definition magnitude (k : shape) (r : list N) : Z :=
  Z.max 1 (if number r <? 2 ^ (8 * Z.of_nat (octets k) - 1) then number r
           else 256 ^ Z.of_nat (octets k) - number r).

Lemma key_size_pos c : (0 < key_size c)%nat.
Proof. destruct c; cbn; lia. Qed.

Lemma generate_gives c r :
  bytes_of (key_size c) r ->
  let m := magnitude (shape_of c) r in
  let top := 2 ^ (8 * Z.of_nat (octets (shape_of c)) - 1) in
  1 <= m <= top /\
  (m < top -> exists key, generate c r = Some key /\ bytes_of (key_size c) key /\ number key = m /\
                          from_signed_bytes key = m) /\
  (m = top -> generate c r = None).
Proof.
  intros [LR BR] m top. pose proof (key_size_pos c) as KS.
  pose proof (number_bound _ BR) as NB. rewrite LR in NB.
  pose proof (half_power (Z.of_nat (key_size c)) ltac:(lia)) as HP.
  assert (T : top = 2 ^ (8 * Z.of_nat (key_size c) - 1)) by (unfold top; rewrite octets_of; reflexivity).
  assert (T0 : 1 <= top) by (rewrite T; pose proof (Z.pow_pos_nonneg 2 (8 * Z.of_nat (key_size c) - 1)); lia).
  assert (M : m = (let key := from_signed_bytes r in
                   let key := if key <? 0 then - key else key in if key <? 1 then 1 else key)).
  { unfold m, magnitude. rewrite octets_of. fold top. rewrite <- T.
    destruct (number r <? top) eqn:L; zb.
    - rewrite signed_small by (rewrite LR, <- T; exact L). cbv zeta.
      destruct (number r <? 0) eqn:N0; zb; [lia|]. destruct (number r <? 1) eqn:N1; zb; lia.
    - rewrite signed_large; [|intros ->; cbn in LR; lia|rewrite LR, <- T; exact L].
      rewrite LR. cbv zeta. destruct (_ - _ <? 0) eqn:N0; zb; [|lia].
      destruct (- (_ - _) <? 1) eqn:N1; zb; lia. }
  assert (MB : 1 <= m <= top).
  { unfold m, magnitude. rewrite octets_of. rewrite <- T. destruct (number r <? top) eqn:L; zb; lia. }
  split; [exact MB|]. unfold generate. cbv zeta in M. cbv zeta. rewrite <- M.
  unfold to_signed_bytes. rewrite low_bytes_length. split.
  - intros LT. pose proof (width_le m (key_size c) ltac:(rewrite <- T; lia) KS) as W.
    destruct (key_size c <? width m)%nat eqn:Q; [apply Nat.ltb_lt in Q; lia|].
    eexists. split; [reflexivity|].
    assert (LK : List.length (low_bytes (width m) m ++ repeat 0%N (key_size c - width m)) = key_size c)
      by (rewrite app_length, low_bytes_length, repeat_length; lia).
    assert (NK : number (low_bytes (width m) m ++ repeat 0%N (key_size c - width m)) = m).
    { rewrite number_app, number_zeros, Z.mul_0_r, Z.add_0_r, low_bytes_number.
      apply Z.mod_small. split; [lia|]. apply width_fits. lia. }
    split; [split; [exact LK|]|split; [exact NK|]].
    + apply Forall_app. split.
      * apply low_bytes_bytes.
      * apply Forall_forall. intros b I. apply repeat_spec in I. subst b. reflexivity.
    + rewrite signed_small; [exact NK|]. rewrite NK, LK, <- T. exact LT.
  - intros EQ. pose proof (width_gt m (key_size c) ltac:(rewrite <- T; lia) KS) as W.
    destruct (key_size c <? width m)%nat eqn:Q; [reflexivity|]. apply Nat.ltb_ge in Q. lia.
Qed.

Lemma base_on_curve c : on_curve (shape_of c) (base_x c) (base_y c).
Proof. destruct c; vm_compute; repeat split; intros; discriminate. Qed.

(** A derived public key. *)
Lemma derive_gives c key d bytes :
  from_signed_bytes key = Zpos d ->
  smooth c d (base c) Infinite = true ->
  derive c key = Some bytes ->
  exists x y,
    multiple (shape_of c) d (Spot (start_x (shape_of c)) (start_y (shape_of c))) (Spot x y) /\
    on_curve (shape_of c) x y /\ List.length bytes = (2 * octets (shape_of c))%nat /\
    mumbles (shape_of c) (first_half (shape_of c) bytes) x /\
    mumbles (shape_of c) (second_half (shape_of c) bytes) y.
Proof.
  intros K SM D. unfold derive in D. rewrite K in D.
  replace (Spot (start_x (shape_of c)) (start_y (shape_of c))) with (Spot (base_x c) (base_y c))
    by (destruct c; reflexivity).
  apply product_bytes; [apply base_on_curve|exact SM|exact D].
Qed.

(** Keys always have the size of their curve. *)
Lemma to_bytes_length c a bytes : to_bytes c a = Some bytes -> List.length bytes = (2 * key_size c)%nat.
Proof.
  unfold to_bytes. destruct (to_affine c a); try discriminate. intros H. injection H as <-.
  rewrite app_length, !resize_length. lia.
Qed.

Lemma shared_gives c key d public bytes :
  from_signed_bytes key = Zpos d ->
  valid_public_key (shape_of c) public ->
  let top := 2 ^ (8 * Z.of_nat (octets (shape_of c)) - 1) in
  number (first_half (shape_of c) public) < top ->
  number (second_half (shape_of c) public) < top ->
  smooth c d (to_point public) Infinite = true ->
  shared_secret c key public = Some bytes ->
  exists x y,
    multiple (shape_of c) d
      (Spot (number (first_half (shape_of c) public)) (number (second_half (shape_of c) public))) (Spot x y) /\
    on_curve (shape_of c) x y /\ List.length bytes = (2 * octets (shape_of c))%nat /\
    mumbles (shape_of c) (first_half (shape_of c) bytes) x /\
    mumbles (shape_of c) (second_half (shape_of c) bytes) y.
Proof.
  intros K (LP & ON) top T1 T2 SM D.
  assert (TP : to_point public = from_affine (number (first_half (shape_of c) public)) (number (second_half (shape_of c) public))).
  { unfold to_point. rewrite LP. replace (2 * octets (shape_of c) / 2)%nat with (octets (shape_of c))
      by (rewrite Nat.mul_comm, Nat.div_mul; lia).
    unfold first_half, second_half in *. rewrite !signed_small; [reflexivity| |].
    - rewrite skipn_length, LP. replace (2 * octets (shape_of c) - octets (shape_of c))%nat with (octets (shape_of c)) by lia.
      exact T2.
    - rewrite firstn_length, LP, Nat.min_l by lia. exact T1. }
  unfold shared_secret in D. rewrite TP in SM, D. rewrite K in D.
  apply product_bytes; assumption.
Qed.
