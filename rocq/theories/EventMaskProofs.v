(** Proofs about the tests of the event masks. *)
From Verif Require Import Prelude EventMask EventMaskSpec EventMaskLe LeTypes LeAdvertise LeHost LeOutputs.
Open Scope N_scope.

Lemma land_one_bit m n : negb (N.land m (N.shiftl 1 n) =? 0) = N.testbit m n.
Proof.
  destruct (N.testbit m n) eqn:B.
  - apply negb_true_iff, N.eqb_neq. intros E.
    assert (N.testbit (N.land m (N.shiftl 1 n)) n = false) as X by (rewrite E; apply N.bits_0).
    rewrite N.land_spec, B, N.shiftl_spec_high', N.sub_diag in X by reflexivity. discriminate X.
  - apply negb_false_iff, N.eqb_eq, N.bits_inj. intros i. rewrite N.bits_0, N.land_spec.
    destruct (N.eq_dec i n) as [->|NE]; [now rewrite B|].
    rewrite N.shiftl_1_l, N.pow2_bits_false by congruence. apply andb_false_r.
Qed.

Lemma shift_one_some n : n < 64 -> shift_one (Z.of_N n) = Some (N.shiftl 1 n).
Proof.
  intros H. unfold shift_one. destruct (_ && _)%Z eqn:B; [now rewrite N2Z.id|].
  apply andb_false_iff in B. rewrite Z.leb_gt, Z.ltb_ge in B. lia.
Qed.

Lemma test_mask_bit mask n : n < 64 -> test_mask mask (shift_one (Z.of_N n)) = Some (N.testbit mask n).
Proof. intros H. rewrite shift_one_some by exact H. cbn [test_mask]. now rewrite land_one_bit. Qed.

(** What the code computes *)
Lemma page1_value mask mask2 evt : 1 <= evt -> evt <= 64 ->
  is_event_unmasked mask mask2 evt = Some (N.testbit mask (evt - 1)).
Proof.
  intros A B. unfold is_event_unmasked. rewrite (proj2 (N.leb_le _ _) B).
  replace (Z.of_N evt - 1)%Z with (Z.of_N (evt - 1)) by lia. apply test_mask_bit. lia.
Qed.
Lemma page2_value mask mask2 evt : 64 < evt -> evt <= 128 ->
  is_event_unmasked mask mask2 evt = Some (N.testbit mask2 (evt - 65)).
Proof.
  intros A B. unfold is_event_unmasked. rewrite (proj2 (N.leb_gt _ _) A).
  replace (Z.of_N (evt - 64) - 1)%Z with (Z.of_N (evt - 65)) by lia. apply test_mask_bit. lia.
Qed.
Lemma le_value mask mask2 le_mask sub : 1 <= sub -> sub <= 64 ->
  is_le_event_unmasked mask mask2 le_mask sub = Some (N.testbit mask 61 && N.testbit le_mask (sub - 1)).
Proof.
  intros A B. unfold is_le_event_unmasked. rewrite page1_value by lia.
  replace (Z.of_N sub - 1)%Z with (Z.of_N (sub - 1)) by lia. rewrite shift_one_some by lia.
  rewrite land_one_bit. reflexivity.
Qed.

Lemma sweep (l : list (N * N)) (P : N * N -> bool) : forallb P l = true -> forall c b, In (c, b) l -> P (c, b) = true.
Proof. intros F c b I. rewrite forallb_forall in F. exact (F _ I). Qed.

Theorem page1_correct mask mask2 c b : In (c, b) page1_bits ->
  is_event_unmasked mask mask2 c = Some (N.testbit mask b).
Proof.
  intros I. assert ((1 <=? c) && (c <=? 64) && (c - 1 =? b) = true) as X
    by (apply (sweep page1_bits (fun x => (1 <=? fst x) && (fst x <=? 64) && (fst x - 1 =? snd x))); [reflexivity|exact I]).
  bsplit. rewrite page1_value by lia. do 2 f_equal. lia.
Qed.

Theorem le_correct mask mask2 le_mask c b : In (c, b) le_bits ->
  is_le_event_unmasked mask mask2 le_mask c = Some (N.testbit mask 61 && N.testbit le_mask b).
Proof.
  intros I. assert ((1 <=? c) && (c <=? 64) && (c - 1 =? b) = true) as X
    by (apply (sweep le_bits (fun x => (1 <=? fst x) && (fst x <=? 64) && (fst x - 1 =? snd x))); [reflexivity|exact I]).
  bsplit. rewrite le_value by lia. do 3 f_equal. lia.
Qed.

(** Each event of the second page is governed by the bit before its own *)
Theorem page2_shifted mask mask2 c b : In (c, b) page2_bits ->
  is_event_unmasked mask mask2 c = Some (N.testbit mask2 (b - 1)) /\ b <> 0.
Proof.
  intros I. assert ((64 <? c) && (c <=? 128) && (c - 65 =? b - 1) && negb (b =? 0) = true) as X
    by (apply (sweep page2_bits (fun x => (64 <? fst x) && (fst x <=? 128) && (fst x - 65 =? snd x - 1) && negb (snd x =? 0))); [reflexivity|exact I]).
  bsplit. rewrite page2_value by lia. split; [do 2 f_equal; lia|]. assumption.
Qed.

(** Exactly when the test is undefined *)
Theorem undefined_exact mask mask2 evt : is_event_unmasked mask mask2 evt = None <-> evt = 0 \/ 128 < evt.
Proof.
  destruct (N.eq_dec evt 0) as [->|Z]; [split; [now left|reflexivity]|].
  destruct (N.le_gt_cases evt 64) as [A|A]; [rewrite page1_value by lia; split; [discriminate|lia]|].
  destruct (N.le_gt_cases evt 128) as [B|B]; [rewrite page2_value by lia; split; [discriminate|lia]|].
  split; [now right|]. intros _. unfold is_event_unmasked, shift_one, test_mask.
  rewrite (proj2 (N.leb_gt _ _) A). destruct (_ && _)%Z eqn:E; [|reflexivity]. exfalso.
  apply andb_true_iff in E. rewrite Z.leb_le, Z.ltb_lt in E. lia.
Qed.

(** The model of the LE controller uses these tests *)
Lemma event_unmasked_is s evt : 1 <= evt -> evt <= 128 ->
  is_event_unmasked (event_mask s) (event_mask_2 s) evt = Some (event_unmasked s evt).
Proof.
  intros A B. unfold event_unmasked. destruct (N.leb_spec evt 64).
  - now apply page1_value. - rewrite page2_value by lia. do 2 f_equal. lia.
Qed.
Lemma le_event_unmasked_is s sub : 1 <= sub -> sub <= 64 ->
  is_le_event_unmasked (event_mask s) (event_mask_2 s) (le_mask s) sub = Some (le_event_unmasked s sub).
Proof. intros A B. rewrite le_value by lia. reflexivity. Qed.

Theorem notified_allowed aes rng cfg now s o s' st out e :
  step aes rng cfg now s o = Ok s' st out -> In (Notified e) out -> allowed s e.
Proof.
  intros S I. pose proof (step_fine _ _ _ _ _ _ _ _ _ S) as F. rewrite Forall_forall in F. apply F in I. clear F S.
  cbn [fine] in I. unfold unmasked, le_event_unmasked, event_unmasked in I.
  destruct e; cbn [subevent] in I; unfold allowed; cbn [code_of fst snd].
  all: try (apply andb_true_iff in I as [I1 I2]; split; [eexists; split; [|exact I1]; vm_compute; tauto|]).
  all: try (eexists; split; [|exact I2]; vm_compute; tauto).
  split; [|exact Logic.I]. eexists; split; [|exact I]; vm_compute; tauto.
Qed.
