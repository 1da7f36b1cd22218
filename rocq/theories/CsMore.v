(** Proofs about channel sounding: valid configurations, security and aborts. *)
From Verif Require Import Prelude Table Cs CsSpec CsProofs.
Open Scope N_scope.
Ltac Zify.zify_post_hook ::= Z.div_mod_to_equations.

(** * Channel maps *)
Lemma fold_none (R : list (N * N)) :
  fold_left (fun n e => match n with None => None | Some n => if nonzero (N.land (fst e) (snd e)) then None else Some (n + popcount (fst e)) end) R None = None.
Proof. induction R; auto. Qed.
Lemma count_fold (R : list (N * N)) : forall acc n,
  fold_left (fun n e => match n with None => None | Some n => if nonzero (N.land (fst e) (snd e)) then None else Some (n + popcount (fst e)) end) R (Some acc) = Some n ->
  n = acc + fold_right (fun e t => popcount (fst e) + t) 0 R /\ Forall (fun e => N.land (fst e) (snd e) = 0) R.
Proof.
  induction R as [|e R IH]; intros acc n H; cbn [fold_left] in H; [injection H as <-; cbn; split; [lia|constructor]|].
  destruct (nonzero (N.land (fst e) (snd e))) eqn:Z; [now rewrite fold_none in H|]. destruct (IH _ _ H) as [-> F].
  split; [cbn [fold_right]; lia|]. constructor; [|exact F]. unfold nonzero in Z. apply negb_false_iff in Z. now apply N.eqb_eq in Z.
Qed.
Lemma land_bit a b i : N.land a b = 0 -> N.testbit b i = true -> N.testbit a i = false.
Proof. intros H B. assert (T : N.testbit (N.land a b) i = false) by (rewrite H; apply N.bits_0). rewrite N.land_spec, B, andb_true_r in T. exact T. Qed.

Lemma uses_at m k j : (j < 8)%nat -> uses m (8 * k + j) = N.testbit (nth k m 0) (N.of_nat j).
Proof.
  intros L. unfold uses. replace ((8 * k + j) / 8)%nat with k by (rewrite Nat.mul_comm, Nat.div_add_l by lia; rewrite Nat.div_small by lia; lia).
  replace ((8 * k + j) mod 8)%nat with j; [reflexivity|]. rewrite Nat.mul_comm, Nat.add_comm, Nat.mod_add by lia. symmetry. now apply Nat.mod_small.
Qed.
Lemma chunk m k : List.length (filter (uses m) (seq (8 * k) 8)) = N.to_nat (popcount (nth k m 0)).
Proof.
  assert (E : seq (8 * k) 8 = map (fun j => 8 * k + j)%nat [0; 1; 2; 3; 4; 5; 6; 7]%nat).
  { cbn [map seq]. repeat (f_equal; [lia|]). f_equal; lia. }
  rewrite E. clear E. cbn [map filter]. rewrite !uses_at by lia. unfold popcount. cbn [fold_left N.of_nat Pos.of_succ_nat Pos.succ].
  repeat match goal with |- context [N.testbit ?a ?i] => destruct (N.testbit a i) end; reflexivity.
Qed.
Lemma eighty m : List.length (filter (uses m) (seq 0 80)) =
  N.to_nat (popcount (nth 0 m 0) + (popcount (nth 1 m 0) + (popcount (nth 2 m 0) + (popcount (nth 3 m 0) + (popcount (nth 4 m 0) + (popcount (nth 5 m 0) +
    (popcount (nth 6 m 0) + (popcount (nth 7 m 0) + (popcount (nth 8 m 0) + popcount (nth 9 m 0)))))))))).
Proof.
  rewrite !N2Nat.inj_add, <- !chunk.
  change (seq 0 80) with (seq (8 * 0) 8 ++ seq (8 * 1) 8 ++ seq (8 * 2) 8 ++ seq (8 * 3) 8 ++ seq (8 * 4) 8 ++ seq (8 * 5) 8 ++ seq (8 * 6) 8 ++ seq (8 * 7) 8 ++ seq (8 * 8) 8 ++ seq (8 * 9) 8).
  rewrite !filter_app, !app_length. reflexivity.
Qed.
Lemma popcount0 : popcount 0 = 0. Proof. reflexivity. Qed.

Lemma land_nth R : forall m k, Forall (fun e => N.land (fst e) (snd e) = 0) (combine m R) -> N.land (nth k m 0) (nth k R 0) = 0.
Proof.
  induction R as [|r R IH]; intros m k F; [destruct k; apply N.land_0_r|]. destruct m as [|b m]; [destruct k; apply N.land_0_l|].
  cbn [combine] in F. destruct k; [exact (Forall_inv F)|]. cbn [nth]. apply IH. exact (Forall_inv_tail F).
Qed.
Lemma count_spec r0 r1 r2 r3 r4 r5 r6 r7 r8 r9 m n : count_channels [r0; r1; r2; r3; r4; r5; r6; r7; r8; r9] m = Some n ->
  n = N.of_nat (List.length (filter (uses m) (seq 0 80))) /\
  forall k, (k < 10)%nat -> N.land (nth k m 0) (nth k [r0; r1; r2; r3; r4; r5; r6; r7; r8; r9] 0) = 0.
Proof.
  intros H. unfold count_channels in H. apply count_fold in H as [-> F]. rewrite eighty, N2Nat.id.
  split.
  - clear F. do 10 (destruct m as [|? m]; [cbn [combine fold_right fst nth]; rewrite ?popcount0; lia|]). cbn [combine fold_right fst nth].
    replace (combine m []) with (@nil (N * N)) by (now destruct m). cbn [fold_right]. lia.
  - intros k _. now apply land_nth.
Qed.

Lemma create_map_ok m : map_ok create_reserved m = true -> nearly_valid_map m.
Proof.
  unfold map_ok, create_reserved. destruct (count_channels _ m) as [n|] eqn:C; [|discriminate]. intros L. apply N.leb_le in L. apply count_spec in C as [-> Z]. split; [|lia].
  intros c I. cbn in I.
  repeat (destruct I as [<-|I]; [unfold uses; cbn [Nat.div Nat.modulo Nat.divmod fst snd Nat.sub]; eapply land_bit; [apply Z; lia|reflexivity]|]). contradiction.
Qed.
Lemma split80 : seq 0 80 = seq 0 79 ++ [79%nat]. Proof. reflexivity. Qed.
Lemma filter_last (f : nat -> bool) l x : List.length (filter f (l ++ [x])) = (List.length (filter f l) + if f x then 1 else 0)%nat.
Proof. rewrite filter_app, app_length. cbn [filter]. now destruct (f x). Qed.
Lemma drop79 n : 15 <= N.of_nat (n + 0) -> (15 <= n)%nat. Proof. lia. Qed.
Lemma bit79 m : uses m 79 = N.testbit (nth 9 m 0) 7. Proof. reflexivity. Qed.
Lemma classification_ok m : map_ok classification_reserved m = true -> valid_map m.
Proof.
  unfold map_ok, classification_reserved. destruct (count_channels _ m) as [n|] eqn:C; [|discriminate]. intros L. apply N.leb_le in L. apply count_spec in C as [-> Z]. split.
  - intros c I. cbn in I.
    repeat (destruct I as [<-|I]; [unfold uses; cbn [Nat.div Nat.modulo Nat.divmod fst snd Nat.sub]; eapply land_bit; [apply Z; lia|reflexivity]|]). contradiction.
  - assert (B : uses m 79 = false) by (rewrite bit79; exact (land_bit _ _ 7 (Z 9%nat (le_n 10)) eq_refl)); clear Z.
    rewrite split80, filter_last, B in L. unfold channels.
    exact (drop79 _ L).
Qed.
Lemma one_more k (f : nat -> bool) l l' x : l' = l ++ [x] -> (k <= List.length (filter f l))%nat -> (k <= List.length (filter f l'))%nat.
Proof. intros -> H. rewrite filter_last. lia. Qed.
Local Strategy expand [channels].
Lemma valid_nearly m : valid_map m -> nearly_valid_map m.
Proof. intros [A B]. exact (conj A (one_more 15 (uses m) (seq 0 79) (seq 0 80) 79 split80 B)). Qed.

(** * Valid configurations *)
Lemma bits_land a b : (forall i, N.testbit b i = true -> N.testbit a i = false) -> N.land a b = 0.
Proof. intros H. apply N.bits_inj. intros i. rewrite N.land_spec, N.bits_0. destruct (N.testbit b i) eqn:B; [rewrite (H i B); reflexivity|apply andb_false_r]. Qed.
Lemma count_done (R : list (N * N)) : Forall (fun e => N.land (fst e) (snd e) = 0) R -> forall acc,
  fold_left (fun n e => match n with None => None | Some n => if nonzero (N.land (fst e) (snd e)) then None else Some (n + popcount (fst e)) end) R (Some acc)
  = Some (acc + fold_right (fun e t => popcount (fst e) + t) 0 R).
Proof.
  induction 1 as [|e R Z F IH]; intros acc; [cbn; f_equal; lia|]. cbn [fold_left fold_right]. rewrite Z. change (nonzero 0) with false. cbv match. rewrite IH. f_equal. lia.
Qed.
Lemma nth_land R : forall m, (forall k, (k < List.length R)%nat -> N.land (nth k m 0) (nth k R 0) = 0) -> Forall (fun e => N.land (fst e) (snd e) = 0) (combine m R).
Proof.
  induction R as [|r R IH]; intros m H; [destruct m; constructor|]. destruct m as [|b m]; [constructor|]. cbn [combine]. constructor.
  - apply (H 0%nat). cbn. lia.
  - apply IH. intros k L. apply (H (S k)). cbn. lia.
Qed.
Lemma reserved_bits m : (forall c, In c reserved_channels -> uses m c = false) -> forall k, (k < 10)%nat -> N.land (nth k m 0) (nth k create_reserved 0) = 0.
Proof.
  intros H k L. apply bits_land. intros i B.
  assert (J : k = 0%nat /\ (i = 0 \/ i = 1) \/ k = 2%nat /\ i = 7 \/ k = 3%nat /\ (i = 0 \/ i = 1) \/ k = 9%nat /\ (i = 5 \/ i = 6)).
  { do 10 (destruct k as [|k]; [cbn in B; destruct i as [|[[[p|p|]|[p|p|]|]|[[p|p|]|[p|p|]|]|]]; cbn in B; try discriminate B; try (destruct p; discriminate B); tauto|]). lia. }
  destruct J as [[-> [-> | ->]]|[[-> ->]|[[-> [-> | ->]]|[-> [-> | ->]]]]].
  - exact (H 0%nat (or_introl eq_refl)).
  - exact (H 1%nat (or_intror (or_introl eq_refl))).
  - apply (H 23%nat). cbn. tauto.
  - apply (H 24%nat). cbn. tauto.
  - apply (H 25%nat). cbn. tauto.
  - apply (H 77%nat). cbn. tauto.
  - apply (H 78%nat). cbn. tauto.
Qed.
Lemma map_ok_exact m : map_ok create_reserved m = true <-> nearly_valid_map m.
Proof.
  split; [apply create_map_ok|]. intros [A B].
  assert (F : exists n, count_channels create_reserved m = Some n).
  { unfold count_channels. eexists. apply count_done. apply nth_land. exact (reserved_bits m A). }
  destruct F as [n F]. unfold map_ok. rewrite F. unfold create_reserved in F. apply count_spec in F as [-> _]. apply N.leb_le.
  set (k := List.length _) in *. clearbody k. lia.
Qed.

Ltac bools H := rewrite ?andb_true_iff, ?orb_true_iff, ?negb_true_iff, ?orb_false_iff, ?N.eqb_eq, ?N.leb_le, ?N.ltb_ge in H.
Lemma body_ok_exact id context reserved b : selection b = 1 ->
  body_ok id context reserved b = true <-> id <= 3 /\ context <= 1 /\ reserved = 0 /\ valid_body b.
Proof.
  intros S. unfold body_ok. rewrite S. change (1 =? 1) with true. cbv match. rewrite !andb_true_iff, map_ok_exact.
  split.
  - intros (((((((((((A & B) & C) & D) & E) & F) & G) & (H & I)) & J) & K) & L) & M).
    rewrite ?andb_true_iff, ?orb_true_iff, ?negb_true_iff, ?orb_false_iff, ?N.eqb_eq, ?N.ltb_ge in *.
    split; [lia|]. split; [lia|]. split; [exact M|]. constructor; try lia; try exact K.
    + rewrite !andb_true_iff, !N.eqb_eq in L. destruct L as [[[L|[L L']]|[L L']]|[L L']]; rewrite ?L, ?L'; cbn; try tauto. destruct C as [[-> | ->]| ->]; tauto.
    + intros N. apply N.eqb_neq in N. rewrite N in J. rewrite ?andb_true_iff, ?orb_true_iff, ?negb_true_iff, ?orb_false_iff, ?N.ltb_ge in J. lia.
  - intros (A & B & C & [V1 V2 V3 V4 V5 V6 V7 V8 V9]).
    rewrite ?andb_true_iff, ?orb_true_iff, ?negb_true_iff, ?orb_false_iff, ?N.eqb_eq, ?N.ltb_ge in *.
    assert (T : (sub_mode b =? 255) = true \/ (sub_mode b <> 255 /\ (sub_mode b =? 255) = false)) by (destruct (N.eqb_spec (sub_mode b) 255); auto).
    repeat split; try lia; try exact V1.
    all: try (destruct T as [-> | [T ->]]; [reflexivity|]; specialize (V3 T); rewrite ?negb_true_iff, ?orb_false_iff, ?N.ltb_ge; lia).
    all: try exact (proj1 V1); try exact (proj2 V1). all: rewrite ?andb_true_iff, ?N.eqb_eq; cbn in V2; destruct V2 as [V2|[V2|[V2|[V2|[V2|[V2|[]]]]]]]; injection V2 as E1 E2; lia.
Qed.

Lemma nonzero_true n : nonzero n = true <-> n <> 0.
Proof. unfold nonzero. rewrite negb_true_iff, N.eqb_neq. tauto. Qed.
Lemma land_pow a i : nonzero (N.land a (N.shiftl 1 i)) = N.testbit a i.
Proof.
  unfold nonzero. rewrite N.shiftl_1_l. destruct (N.testbit a i) eqn:B.
  - apply negb_true_iff, N.eqb_neq. intros Z. assert (T : N.testbit (N.land a (2 ^ i)) i = true) by (rewrite N.land_spec, B, N.pow2_bits_true; reflexivity).
    rewrite Z, N.bits_0 in T. discriminate.
  - apply negb_false_iff, N.eqb_eq. apply bits_land. intros j J. apply N.pow2_bits_eqb in J || rewrite N.pow2_bits_eqb in J. apply N.eqb_eq in J. now subst.
Qed.
Lemma land_1 a : nonzero (N.land a 1) = N.testbit a 0. Proof. exact (land_pow a 0). Qed.
Lemma land_2 a : nonzero (N.land a 2) = N.testbit a 1. Proof. exact (land_pow a 1). Qed.
Lemma land_4 a : nonzero (N.land a 4) = N.testbit a 2. Proof. exact (land_pow a 2). Qed.

Lemma rtt_exact c t : rtt_supported c t = true <-> (t = 0 /\ rtt_aa c <> 0) \/ (1 <= t <= 2 /\ rtt_sounding c <> 0) \/ (3 <= t <= 6 /\ rtt_random c <> 0).
Proof.
  unfold rtt_supported. destruct (t =? 0) eqn:A; [rewrite nonzero_true; apply N.eqb_eq in A; lia|]. apply N.eqb_neq in A.
  destruct ((t =? 1) || (t =? 2)) eqn:B; [rewrite nonzero_true; apply orb_true_iff in B; rewrite !N.eqb_eq in B; lia|]. apply orb_false_iff in B. rewrite !N.eqb_neq in B.
  destruct ((3 <=? t) && (t <=? 6)) eqn:C; [rewrite nonzero_true; apply andb_true_iff in C; rewrite !N.leb_le in C; lia|].
  apply andb_false_iff in C. rewrite !N.leb_gt in C. split; [discriminate|]. lia.
Qed.
Lemma phy_exact c p : phy_supported c p = true <-> p = 1 \/ (p = 2 /\ N.testbit (sync_phys c) 1 = true) \/ (p = 3 /\ N.testbit (sync_phys c) 2 = true).
Proof.
  unfold phy_supported. rewrite land_2, land_4.
  destruct (p =? 1) eqn:A; [apply N.eqb_eq in A; tauto|]. apply N.eqb_neq in A.
  destruct (p =? 2) eqn:B; [apply N.eqb_eq in B; subst; split; [tauto|]; intros [X|[X|X]]; [lia|tauto|lia]|]. apply N.eqb_neq in B.
  destruct (p =? 3) eqn:C; [apply N.eqb_eq in C; subst; split; [tauto|]; intros [X|[X|X]]; [lia|lia|tauto]|]. apply N.eqb_neq in C.
  split; [discriminate|]. lia.
Qed.
Lemma mode_exact c m : mode_supported c m = true <-> (m = 3 -> N.testbit (modes c) 0 = true).
Proof.
  unfold mode_supported. rewrite land_1. destruct (m =? 3) eqn:A; [apply N.eqb_eq in A; subst; tauto|]. apply N.eqb_neq in A. tauto.
Qed.
Lemma capable_exact loc rem id b : role b <= 1 ->
  capable loc rem id b = true <-> selection b = 1 /\ supports loc (role b) id b /\ supports rem (1 - role b) id b.
Proof.
  intros R. unfold capable. rewrite !andb_true_iff, !rtt_exact, !phy_exact, !mode_exact, negb_true_iff, orb_false_iff, !N.leb_gt, land_pow, N.eqb_eq.
  assert (Q : nonzero (N.land (roles rem) (if role b =? 0 then 2 else 1)) = N.testbit (roles rem) (1 - role b)).
  { assert (J : role b = 0 \/ role b = 1) by lia. destruct J as [-> | ->]; [apply land_2|apply land_1]. }
  rewrite Q. clear Q R. split.
  - intros X. repeat match goal with H : _ /\ _ |- _ => destruct H end. split; [assumption|]. split; constructor; tauto.
  - intros (S & [A1 A2 A3 A4 A5] & [B1 B2 B3 B4 B5]). tauto.
Qed.

(** What decides about LE CS Create Config *)
Lemma create_exact tm e id context b reserved e' st ps ev : role b <= 1 -> do_command tm e (CreateConfig id context b reserved) = (e', st, ps, ev) ->
  st = SUCCESS <->
  exists r, remote e = Some r /\ N.testbit (role_enable e) (role b) = true /\ id <= 3 /\ context <= 1 /\ reserved = 0 /\ valid_body b /\
            supports (local e) (role b) id b /\ supports r (1 - role b) id b.
Proof.
  intros R H. unfold do_command in H. destruct (remote e) as [r|] eqn:Q; [|apply tuple4 in H as (-> & -> & -> & ->); split; [discriminate|intros (? & ? & ?); discriminate]].
  assert (P : nonzero (N.land (role_enable e) (if role b =? 0 then 1 else 2)) = N.testbit (role_enable e) (role b)).
  { assert (J : role b = 0 \/ role b = 1) by lia. destruct J as [-> | ->]; [apply land_1|apply land_2]. }
  rewrite P in H. clear P.
  split.
  - intros ->. crack H; try discriminate H.
    all: exists r; apply negb_false_iff in Heqb0, Heqb1, Heqb2; apply (capable_exact _ _ _ _ R) in Heqb2 as (S & S1 & S2);
         apply (body_ok_exact _ _ _ _ S) in Heqb1; tauto.
  - intros (r' & [= <-] & T & A & B & C & V & S1 & S2). assert (S := vb_selection _ V).
    rewrite T, (proj2 (body_ok_exact id context reserved b S) (conj A (conj B (conj C V)))) in H.
    rewrite (proj2 (capable_exact (local e) r id b R) (conj S (conj S1 S2))) in H. cbn in H. destruct (context =? 1); now apply tuple4 in H.
Qed.
