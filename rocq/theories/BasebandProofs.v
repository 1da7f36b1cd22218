(** Proofs about the baseband header and capture. *)
From Verif Require Import Prelude Sniffer SnifferSpec Baseband BasebandSpec.
Open Scope N_scope.
Ltac Zify.zify_post_hook ::= Z.div_mod_to_equations.

(** * Polynomials *)
Lemma multiple_xor g a b : multiple g a -> multiple g b -> multiple g (N.lxor a b).
Proof.
  intros A. induction 1 as [|b k B IH]; [now rewrite N.lxor_0_r|]. rewrite <- N.lxor_assoc. now constructor.
Qed.
Lemma multiple_shift g a n : multiple g a -> multiple g (N.shiftl a n).
Proof.
  induction 1 as [|a k A IH]; [rewrite N.shiftl_0_l; constructor|]. rewrite N.shiftl_lxor, N.shiftl_shiftl. now constructor.
Qed.
Lemma multiple_one g : multiple g g.
Proof. replace g with (N.lxor 0 (N.shiftl g 0)) at 2 by (now rewrite N.lxor_0_l, N.shiftl_0_r). repeat constructor. Qed.

(** * Finite sweeps *)
Definition upto (n : nat) : list N := map N.of_nat (seq 0 n).
Lemma in_upto n x : x < N.of_nat n -> In x (upto n).
Proof. intros L. apply in_map_iff. exists (N.to_nat x). split; [lia|]. apply in_seq. lia. Qed.
Lemma sweep_n (n : nat) (f : N -> bool) : forallb f (upto n) = true -> forall x, x < N.of_nat n -> f x = true.
Proof. intros S x L. rewrite forallb_forall in S. apply S. now apply in_upto. Qed.

(** One turn of the loop: the shift and the conditional reduction *)
Definition turn (value : N) (b : bool) : N :=
  if xorb (N.odd value) b then N.lxor (N.shiftr value 1) 0xe5 else N.shiftr value 1.

Lemma odd_lxor a b : N.odd (N.lxor a b) = xorb (N.odd a) (N.odd b).
Proof. rewrite <- !N.bit0_odd. apply N.lxor_spec. Qed.

Lemma hec_loop_turn n value data : hec_loop (S n) value data = hec_loop n (turn value (N.odd data)) (N.shiftr data 1).
Proof. cbn [hec_loop]. now rewrite odd_lxor. Qed.

Definition turn_ok (v : N) (b : bool) : bool :=
  (turn v b <? 256) &&
  (N.lxor (reversed 8 (turn v b)) (N.lxor (N.shiftl (reversed 8 v) 1) (N.shiftl (if b then 1 else 0) 8)) =?
   if xorb (N.odd v) b then generator else 0).
Lemma turn_all : forallb (fun v => turn_ok v true && turn_ok v false) (upto 256) = true.
Proof. vm_compute. reflexivity. Qed.
Lemma turn_spec v b : v < 256 -> turn v b < 256 /\
  multiple generator (N.lxor (reversed 8 (turn v b)) (N.lxor (N.shiftl (reversed 8 v) 1) (N.shiftl (if b then 1 else 0) 8))).
Proof.
  intros L. pose proof (sweep_n 256 _ turn_all v L) as H. apply andb_true_iff in H as [H1 H2].
  assert (H : turn_ok v b = true) by (destruct b; assumption). apply andb_true_iff in H as [A B].
  split; [now apply N.ltb_lt|]. apply N.eqb_eq in B. rewrite B.
  destruct (xorb _ _); [apply multiple_one|constructor].
Qed.

Lemma reversed_bound n : forall x, reversed n x < 2 ^ N.of_nat n.
Proof.
  induction n as [|n IH]; intros x; cbn [reversed]; [reflexivity|]. specialize (IH (x / 2)).
  rewrite Nat2N.inj_succ, N.pow_succ_r'. assert (x mod 2 = 0 \/ x mod 2 = 1) as [-> | ->] by lia; lia.
Qed.

Lemma reversed_S n x : reversed (S n) x = N.lxor (N.shiftl (if N.odd x then 1 else 0) (N.of_nat n)) (reversed n (N.shiftr x 1)).
Proof.
  cbn [reversed]. rewrite N.shiftr_div_pow2. change (2 ^ 1) with 2. rewrite <- N.bit0_mod, N.bit0_odd.
  pose proof (reversed_bound n (x / 2)) as B. rewrite N.shiftl_mul_pow2. destruct (N.odd x); cbn [N.b2n].
  - rewrite !N.mul_1_l, N.add_nocarry_lxor; [reflexivity|].
    apply N.bits_inj. intros i. rewrite N.land_spec, N.pow2_bits_eqb, N.bits_0. destruct (N.eqb_spec (N.of_nat n) i) as [<-|]; [|reflexivity].
    cbn [andb]. destruct (N.eq_dec (reversed n (x / 2)) 0) as [->|NZ]; [apply N.bits_0|].
    apply N.bits_above_log2. apply N.log2_lt_pow2; lia.
  - now rewrite !N.mul_0_l, N.lxor_0_l.
Qed.

(** * The check is the remainder *)
Lemma xor_perm a b c d : N.lxor (N.lxor a b) (N.lxor c d) = N.lxor (N.lxor a c) (N.lxor b d).
Proof. rewrite !N.lxor_assoc. f_equal. now rewrite <- !N.lxor_assoc, (N.lxor_comm b c). Qed.

Lemma hec_loop_remainder n : forall v d, v < 256 ->
  hec_loop n v d < 256 /\
  multiple generator (N.lxor (N.lxor (N.shiftl (reversed n d) 8) (N.shiftl (reversed 8 v) (N.of_nat n))) (reversed 8 (hec_loop n v d))).
Proof.
  induction n as [|n IH]; intros v d L.
  - split; [exact L|]. cbn [hec_loop reversed]. change (N.of_nat 0) with 0.
    rewrite N.shiftl_0_l, N.shiftl_0_r, N.lxor_0_l, N.lxor_nilpotent. constructor.
  - rewrite hec_loop_turn. destruct (turn_spec v (N.odd d) L) as [L' M]. destruct (IH _ (N.shiftr d 1) L') as [L2 M2].
    split; [exact L2|]. apply (multiple_shift _ _ (N.of_nat n)) in M. pose proof (multiple_xor _ _ _ M M2) as X.
    match type of X with multiple _ ?a => match goal with |- multiple _ ?b => replace b with a; [exact X|] end end.
    rewrite (reversed_S n d). rewrite !N.shiftl_lxor, !N.shiftl_shiftl.
    rewrite (Nat2N.inj_succ n). replace (1 + N.of_nat n) with (N.succ (N.of_nat n)) by lia. replace (N.of_nat n + 8) with (8 + N.of_nat n) by lia.
    set (p := N.shiftl (reversed 8 (turn v (N.odd d))) (N.of_nat n)). set (q := N.shiftl (reversed 8 v) (N.succ (N.of_nat n))).
    set (u := N.shiftl (if N.odd d then 1 else 0) (8 + N.of_nat n)). set (w := N.shiftl (reversed n (N.shiftr d 1)) 8).
    set (z := reversed 8 (hec_loop n (turn v (N.odd d)) (N.shiftr d 1))).
    apply N.bits_inj. intros i. rewrite !N.lxor_spec.
    destruct (N.testbit p i), (N.testbit q i), (N.testbit u i), (N.testbit w i), (N.testbit z i); reflexivity.
Qed.

Lemma reverse_all : forallb (fun b => (reverse_byte b =? reversed 8 b) && (reverse_byte (reverse_byte b) =? b) && (reverse_byte b <? 256)) (upto 256) = true.
Proof. vm_compute. reflexivity. Qed.
Lemma reverse_spec b : b < 256 -> reverse_byte b = reversed 8 b /\ reverse_byte (reverse_byte b) = b /\ reverse_byte b < 256.
Proof.
  intros L. pose proof (sweep_n 256 _ reverse_all b L) as H. apply andb_true_iff in H as [H H3]. apply andb_true_iff in H as [H1 H2].
  apply N.eqb_eq in H1, H2. apply N.ltb_lt in H3. auto.
Qed.

Lemma hec_remainder uap data : uap < 256 ->
  header_error_check uap data < 256 /\
  is_remainder generator (N.lxor (N.shiftl (reversed 10 data) 8) (N.shiftl uap 10)) (reversed 8 (header_error_check uap data)).
Proof.
  intros L. destruct (reverse_spec uap L) as (R1 & R2 & R3). destruct (hec_loop_remainder 10 _ data R3) as [A B].
  split; [exact A|]. split; [apply (reversed_bound 8)|].
  replace (reversed 8 (reverse_byte uap)) with uap in B; [exact B|].
  rewrite <- R2 at 1. now destruct (reverse_spec _ R3) as (-> & _).
Qed.

(** * Linearity *)
Lemma turn_lxor v v' b b' : turn (N.lxor v v') (xorb b b') = N.lxor (turn v b) (turn v' b').
Proof.
  unfold turn. rewrite odd_lxor, N.shiftr_lxor.
  set (x := N.shiftr v 1). set (y := N.shiftr v' 1).
  destruct (N.odd v), (N.odd v'), b, b'; cbn [xorb]; apply N.bits_inj; intros i; rewrite ?N.lxor_spec;
    destruct (N.testbit x i), (N.testbit y i), (N.testbit 0xe5 i); reflexivity.
Qed.
Lemma hec_loop_lxor n : forall v v' d d', hec_loop n (N.lxor v v') (N.lxor d d') = N.lxor (hec_loop n v d) (hec_loop n v' d').
Proof.
  induction n as [|n IH]; intros v v' d d'; [reflexivity|]. rewrite !hec_loop_turn, odd_lxor, turn_lxor, N.shiftr_lxor. apply IH.
Qed.
Lemma reverse_lxor_all : forallb (fun a => forallb (fun b => reverse_byte (N.lxor a b) =? N.lxor (reverse_byte a) (reverse_byte b)) (upto 256)) (upto 256) = true.
Proof. vm_compute. reflexivity. Qed.
Lemma reverse_lxor a b : a < 256 -> b < 256 -> reverse_byte (N.lxor a b) = N.lxor (reverse_byte a) (reverse_byte b).
Proof.
  intros A B. pose proof (sweep_n 256 _ reverse_lxor_all a A) as H. cbv beta in H. pose proof (sweep_n 256 _ H b B) as X. now apply N.eqb_eq.
Qed.
Lemma hec_linear u u' d d' : u < 256 -> u' < 256 ->
  header_error_check (N.lxor u u') (N.lxor d d') = N.lxor (header_error_check u d) (header_error_check u' d').
Proof. intros A B. unfold header_error_check. rewrite reverse_lxor by assumption. apply hec_loop_lxor. Qed.

(** * Error detection *)
Lemma lxor_small n a b : a < 2 ^ n -> b < 2 ^ n -> N.lxor a b < 2 ^ n.
Proof.
  intros A B. destruct (N.eq_dec (N.lxor a b) 0) as [->|NZ]; [lia|]. apply N.log2_lt_pow2; [lia|].
  pose proof (N.log2_lxor a b). destruct (N.eq_dec a 0) as [->|]; [rewrite N.lxor_0_l in *; destruct (N.eq_dec b 0); [lia|apply N.log2_lt_pow2; lia]|].
  destruct (N.eq_dec b 0) as [->|]; [rewrite N.lxor_0_r in *; apply N.log2_lt_pow2; lia|].
  apply N.log2_lt_pow2 in A; [|lia]. apply N.log2_lt_pow2 in B; [|lia]. lia.
Qed.

Lemma distance_all : forallb (fun d => (d =? 0) || (4 <=? weight 10 d + weight 8 (header_error_check 0 d))) (upto 1024) = true.
Proof. vm_compute. reflexivity. Qed.
Lemma uap_all : forallb (fun u => (u =? 0) || negb (header_error_check u 0 =? 0)) (upto 256) = true.
Proof. vm_compute. reflexivity. Qed.

Lemma weight_split n m : forall x, weight (n + m) x = weight n x + weight m (x / 2 ^ N.of_nat n).
Proof.
  induction n as [|n IH]; intros x.
  - cbn [Nat.add weight]. change (2 ^ N.of_nat 0) with 1. now rewrite N.div_1_r.
  - cbn [Nat.add weight]. rewrite IH, Nat2N.inj_succ, N.pow_succ_r', N.div_div; lia.
Qed.
Lemma weight_low n : forall x, weight n (x mod 2 ^ N.of_nat n) = weight n x.
Proof.
  induction n as [|n IH]; intros x; [reflexivity|]. cbn [weight]. rewrite <- (IH (x / 2)).
  rewrite Nat2N.inj_succ, N.pow_succ_r'. f_equal.
  - rewrite N.mod_mul_r by lia. rewrite (N.mul_comm 2 (_ mod _)), N.mod_add by lia. apply N.mod_mod. lia.
  - f_equal. rewrite N.mod_mul_r by lia. rewrite (N.mul_comm 2 (_ mod _)), N.div_add by lia. rewrite N.div_small; [reflexivity|]. lia.
Qed.

Lemma lxor_mod_div a b k : N.lxor a b mod 2 ^ k = N.lxor (a mod 2 ^ k) (b mod 2 ^ k) /\ N.lxor a b / 2 ^ k = N.lxor (a / 2 ^ k) (b / 2 ^ k).
Proof.
  rewrite <- !N.land_ones, <- !N.shiftr_div_pow2. split; [|apply N.shiftr_lxor].
  apply N.bits_inj. intros i. rewrite !N.land_spec, !N.lxor_spec, !N.land_spec. now destruct (N.testbit a i), (N.testbit b i), (N.testbit (N.ones k) i).
Qed.

Lemma distance uap h h' : uap < 256 -> h < 2 ^ 18 -> h' < 2 ^ 18 -> h <> h' ->
  header_error_check uap (h mod 1024) = h / 1024 -> header_error_check uap (h' mod 1024) = h' / 1024 ->
  4 <= weight 18 (N.lxor h h').
Proof.
  intros U A B NE X Y.
  change 1024 with (2 ^ 10) in *. destruct (lxor_mod_div h h' 10) as [M D].
  pose proof (hec_linear uap uap (h mod 2 ^ 10) (h' mod 2 ^ 10) U U) as LIN. rewrite N.lxor_nilpotent, X, Y, <- M, <- D in LIN.
  assert (L : N.lxor h h' mod 2 ^ 10 < 1024) by (apply N.mod_lt; discriminate).
  pose proof (sweep_n 1024 _ distance_all _ L) as S. cbv beta in S. apply orb_true_iff in S as [S|S].
  - exfalso. apply N.eqb_eq in S. rewrite S in LIN. assert (Z : header_error_check 0 0 = 0) by reflexivity. rewrite Z in LIN.
    apply NE. apply N.lxor_eq. pose proof (N.div_mod' (N.lxor h h') (2 ^ 10)). lia.
  - apply N.leb_le in S. rewrite LIN in S. change 18%nat with (10 + 8)%nat. rewrite weight_split. change (N.of_nat 10) with 10.
    rewrite <- (weight_low 10 (N.lxor h h')). exact S.
Qed.

Lemma hec_injective u u' d : u < 256 -> u' < 256 -> header_error_check u d = header_error_check u' d -> u = u'.
Proof.
  intros A B E. pose proof (hec_linear u u' d d A B) as L. rewrite N.lxor_nilpotent, E, N.lxor_nilpotent in L.
  pose proof (lxor_small 8 u u' A B) as S. pose proof (sweep_n 256 _ uap_all _ S) as X. cbv beta in X. apply orb_true_iff in X as [X|X].
  - apply N.lxor_eq. now apply N.eqb_eq.
  - rewrite L in X. discriminate.
Qed.

(** * Remainders are unique *)
Definition reduce_step (r : N) (b : bool) : N :=
  let x := N.lxor (N.shiftl r 1) (N.b2n b) in if N.testbit x 8 then N.lxor x generator else x.
Fixpoint reduce_pos (p : positive) : N :=
  match p with
  | xH => reduce_step 0 true
  | xO p => reduce_step (reduce_pos p) false
  | xI p => reduce_step (reduce_pos p) true
  end.
Definition reduce (a : N) : N := match a with 0 => 0 | Npos p => reduce_pos p end.

Lemma reduce_div2 a : reduce a = reduce_step (reduce (N.div2 a)) (N.odd a).
Proof. destruct a as [|[p|p|]]; reflexivity. Qed.

Lemma reduce_step_lxor r r' b b' : reduce_step (N.lxor r r') (xorb b b') = N.lxor (reduce_step r b) (reduce_step r' b').
Proof.
  unfold reduce_step. rewrite N.shiftl_lxor.
  replace (N.lxor (N.lxor (N.shiftl r 1) (N.shiftl r' 1)) (N.b2n (xorb b b'))) with
    (N.lxor (N.lxor (N.shiftl r 1) (N.b2n b)) (N.lxor (N.shiftl r' 1) (N.b2n b'))) by (rewrite xor_perm; f_equal; now destruct b, b').
  set (x := N.lxor (N.shiftl r 1) (N.b2n b)). set (y := N.lxor (N.shiftl r' 1) (N.b2n b')). rewrite N.lxor_spec.
  destruct (N.testbit x 8), (N.testbit y 8); cbn [xorb]; apply N.bits_inj; intros i; rewrite ?N.lxor_spec;
    destruct (N.testbit x i), (N.testbit y i), (N.testbit generator i); reflexivity.
Qed.

Lemma reduce_lxor n : forall a b, a < 2 ^ N.of_nat n -> b < 2 ^ N.of_nat n -> reduce (N.lxor a b) = N.lxor (reduce a) (reduce b).
Proof.
  induction n as [|n IH]; intros a b A B.
  - change (2 ^ N.of_nat 0) with 1 in *. assert (a = 0) by lia. assert (b = 0) by lia. now subst.
  - rewrite Nat2N.inj_succ, N.pow_succ_r' in *.
    rewrite (reduce_div2 (N.lxor a b)), (reduce_div2 a), (reduce_div2 b), odd_lxor.
    rewrite N.div2_spec, N.shiftr_lxor, <- !N.div2_spec. rewrite <- reduce_step_lxor. f_equal. apply IH; rewrite N.div2_div; lia.
Qed.
Lemma reduce_add a b : reduce (N.lxor a b) = N.lxor (reduce a) (reduce b).
Proof.
  apply (reduce_lxor (N.to_nat (N.size a + N.size b))); rewrite N2Nat.id.
  - apply (N.lt_le_trans _ (2 ^ N.size a)); [apply N.size_gt|]. apply N.pow_le_mono_r; lia.
  - apply (N.lt_le_trans _ (2 ^ N.size b)); [apply N.size_gt|]. apply N.pow_le_mono_r; lia.
Qed.
Lemma reduce_shift k : reduce (N.shiftl generator k) = 0.
Proof.
  induction k as [|k IH] using N.peano_ind; [reflexivity|]. rewrite reduce_div2.
  replace (N.div2 (N.shiftl generator (N.succ k))) with (N.shiftl generator k).
  - rewrite IH, <- N.bit0_odd, N.shiftl_spec_low by lia. reflexivity.
  - rewrite <- N.add_1_r, <- N.shiftl_shiftl, N.div2_spec, N.shiftr_shiftl_l by lia. now rewrite N.shiftl_0_r.
Qed.
Lemma reduce_multiple a : multiple generator a -> reduce a = 0.
Proof. induction 1 as [|a k A IH]; [reflexivity|]. now rewrite reduce_add, IH, reduce_shift. Qed.
Lemma reduce_small_all : forallb (fun a => reduce a =? a) (upto 256) = true.
Proof. vm_compute. reflexivity. Qed.

Lemma remainder_unique a r r' : is_remainder generator a r -> is_remainder generator a r' -> r = r'.
Proof.
  intros [L M] [L' M']. pose proof (reduce_multiple _ M) as X. pose proof (reduce_multiple _ M') as Y. rewrite reduce_add in X, Y.
  apply N.lxor_eq in X, Y. pose proof (sweep_n 256 _ reduce_small_all r L) as E. pose proof (sweep_n 256 _ reduce_small_all r' L') as E'.
  apply N.eqb_eq in E, E'. congruence.
Qed.

Lemma reversed_twice_all : forallb (fun b => reversed 8 (reversed 8 b) =? b) (upto 256) = true.
Proof. vm_compute. reflexivity. Qed.

Lemma header_ok_check uap h : uap < 256 -> header_ok uap h -> header_error_check uap (h mod 1024) = h / 1024.
Proof.
  intros U [L R]. destruct (hec_remainder uap (h mod 1024) U) as [B R']. pose proof (remainder_unique _ _ _ R R') as E.
  assert (B' : h / 1024 < 256) by (change (2 ^ 18) with 262144 in L; lia).
  pose proof (sweep_n 256 _ reversed_twice_all _ B) as X. pose proof (sweep_n 256 _ reversed_twice_all _ B') as Y. apply N.eqb_eq in X, Y. congruence.
Qed.

Lemma errors_detected uap h h' : uap < 256 -> header_ok uap h -> header_ok uap h' -> h <> h' -> 4 <= weight 18 (N.lxor h h').
Proof.
  intros U H H' NE. apply (distance uap); auto; [apply H|apply H'|now apply header_ok_check|now apply header_ok_check].
Qed.
Lemma other_uap_detected uap uap' h : uap < 256 -> uap' < 256 -> header_ok uap h -> header_ok uap' h -> uap = uap'.
Proof. intros U U' H H'. apply (hec_injective uap uap' (h mod 1024)); auto. rewrite !header_ok_check; auto. Qed.
