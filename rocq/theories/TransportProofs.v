(** Proofs on the socket connection of a host. *)
From Verif Require Import Prelude H4 H4Spec H4Proofs Transport TransportSpec.
Open Scope N_scope.

Section Dev.
Variables (W : Type) (handle : delivery -> W -> W * list (N * list N)) (work shut : W -> W * list (N * list N)).
Variables (gives : nat -> nat) (takes : nat -> nat -> taken) (stale : nat -> bool).
Local Notation device := (device W).
Local Notation send := (Transport.send W takes stale).
Local Notation send_all := (Transport.send_all W takes stale).
Local Notation close := (Transport.close W shut takes stale).
Local Notation dispatch := (Transport.dispatch W handle takes stale).
Local Notation dispatch_all := (Transport.dispatch_all W handle takes stale).
Local Notation on_data_ready := (Transport.on_data_ready W handle shut gives takes stale).
Local Notation tick := (Transport.tick W handle work shut gives takes stale).
Local Notation step := (Transport.step W handle work shut gives takes stale).
Local Notation steps := (Transport.steps W handle work shut gives takes stale).
Local Notation new_device := (Transport.new_device W).
Local Notation h4 := (Transport.h4 W).
Local Notation opened := (Transport.opened W).
Local Notation inbox := (Transport.inbox W).
Local Notation ended := (Transport.ended W).
Local Notation broken := (Transport.broken W).
Local Notation scheduled := (Transport.scheduled W).
Local Notation present := (Transport.present W).
Local Notation world := (Transport.world W).

Definition link (d : device) := (h4 d, opened d, inbox d, ended d, broken d, (scheduled d, present d)).

Lemma handed_app : forall a b, handed (a ++ b) = handed a ++ handed b.
Proof. intros. apply flat_map_app. Qed.
Lemma offered_app : forall a b, offered (a ++ b) = offered a ++ offered b.
Proof. intros. apply flat_map_app. Qed.
Lemma received_app : forall a b, received (a ++ b) = received a ++ received b.
Proof. intros. apply flat_map_app. Qed.
Lemma removals_app : forall a b, removals (a ++ b) = (removals a + removals b)%nat.
Proof. intros. unfold removals. now rewrite filter_app, app_length. Qed.

Lemma send_link : forall t b d d' o, send t b d = (d', o) -> link d' = link d /\ handed o = [] /\ removals o = 0%nat.
Proof. intros t b d d' o H. unfold Transport.send in H. destruct (connected W stale d); injection H as <- <-; repeat split. Qed.
Lemma send_all_link : forall l d d' o, send_all l d = (d', o) -> link d' = link d /\ handed o = [] /\ removals o = 0%nat.
Proof.
  induction l as [|[t b] l IH]; intros d d' o H; cbn [Transport.send_all] in H; [injection H as <- <-; repeat split|].
  destruct (send t b d) as [d1 o1] eqn:E1. destruct (send_all l d1) as [d2 o2] eqn:E2. injection H as <- <-.
  apply send_link in E1. apply IH in E2. rewrite handed_app, removals_app. destruct E1 as (A & B & C), E2 as (A' & B' & C'). rewrite A', B, B', C, C'. auto.
Qed.
Lemma close_link : forall d d' o, close d = (d', o) ->
  link d' = (h4 d, false, inbox d, ended d, broken d, (S (scheduled d), present d)) /\ handed o = [] /\ removals o = 0%nat.
Proof.
  intros d d' o H. unfold Transport.close in H. cbn [Transport.world] in H. destruct (shut (world d)) as [w l]. destruct (send_all l _) as [d1 o1] eqn:E. injection H as <- <-.
  apply send_all_link in E. destruct E as (A & B & C). unfold link in A |- *. cbn in A |- *. injection A as -> -> -> -> -> -> ->. auto.
Qed.
Lemma dispatch_link : forall x d d' o, dispatch x d = Ok (d', o) -> link d' = link d /\ handed o = [x] /\ removals o = 0%nat.
Proof.
  intros x d d' o H. unfold Transport.dispatch in H.
  assert (G : forall y, (let (w, l) := handle y (world d) in let (d, o) := send_all l (with_world W w d) in Ok (d, Handed y :: o)) = Ok (d', o) -> link d' = link d /\ handed o = [y] /\ removals o = 0%nat).
  { intros y G. destruct (handle y (world d)) as [w l]. destruct (send_all l _) as [d1 o1] eqn:E. injection G as <- <-. apply send_all_link in E. destruct E as (A & B & C).
    split; [rewrite A; reflexivity|]. split; [|exact C]. change (handed (Handed y :: o1)) with (y :: handed o1). now rewrite B. }
  destruct x; try discriminate; now apply G.
Qed.
Lemma dispatch_all_link : forall l d d' o, dispatch_all l d = Ok (d', o) -> link d' = link d /\ handed o = l /\ removals o = 0%nat.
Proof.
  induction l as [|x l IH]; intros d d' o H; cbn [Transport.dispatch_all] in H; [injection H as <- <-; repeat split|].
  destruct (dispatch x d) as [[d1 o1]| | |] eqn:E1; try discriminate. destruct (dispatch_all l d1) as [[d2 o2]| | |] eqn:E2; try discriminate. injection H as <- <-.
  apply dispatch_link in E1. apply IH in E2. destruct E1 as (A & B & C), E2 as (A' & B' & C'). rewrite handed_app, removals_app, A', B, B', C, C'. auto.
Qed.
(** The only way out of the callbacks *)
Lemma dispatch_all_result : forall l d, match dispatch_all l d with Ok _ => forall x, ~ In (ToEvent x) l | Abort => exists x, In (ToEvent x) l | _ => False end.
Proof.
  induction l as [|x l IH]; intros d; cbn [Transport.dispatch_all]; [intros x []|].
  destruct x as [p|p|p|p|p]; cbn [Transport.dispatch]; try (exists p; now left);
    (destruct (handle _ (world d)) as [w m]; destruct (send_all m _) as [d1 o1]; specialize (IH d1); destruct (dispatch_all l d1) as [[d2 o2]| | |];
     [intros y [E|I]; [discriminate|now apply (IH y)]|destruct IH as (y & I); exists y; now right|auto|auto]).
Qed.

(** ** Reading *)
Lemma run_snoc : forall rs p o c p' o', respects (init true) rs = true -> H4.run (init true) rs = Done true p o -> c <> [] -> lenN c <= bytes_requested p ->
  consume p c = Done true p' o' -> respects (init true) (rs ++ [c]) = true /\ H4.run (init true) (rs ++ [c]) = Done true p' (o ++ o').
Proof.
  intros rs p o c p' o' R E NE L C. split.
  - revert R E. generalize (init true) as q, o as oo. induction rs as [|r rs IH]; intros q oo R E; cbn [app respects H4.run] in *.
    + injection E as -> <-. rewrite C. pose proof (lenN_pos c NE). replace (1 <=? lenN c) with true by (symmetry; now apply N.leb_le). replace (lenN c <=? bytes_requested p) with true by (symmetry; now apply N.leb_le). reflexivity.
    + apply andb_true_iff in R. destruct R as (R1 & R2). rewrite R1. cbn [andb]. destruct (consume q r) as [x q' oq| |]; auto.
      destruct (H4.run q' rs) as [y q'' oo'| |] eqn:E'; try discriminate. injection E as -> -> <-. eapply IH; eauto.
  - rewrite run_app, E. cbn [bindo]. rewrite run_single, C by auto. reflexivity.
Qed.

(** The bytes read so far, in reads that the parser allows *)
Definition fed (bytes : list N) (p : parser) (l : list delivery) : Prop :=
  exists rs, concat rs = bytes /\ respects (init true) rs = true /\ H4.run (init true) rs = Done true p l /\ Inv p /\ enable_recovery p = true.
Lemma fed_step : forall b p l c p' o', fed b p l -> c <> [] -> lenN c <= bytes_requested p -> consume p c = Done true p' o' -> fed (b ++ c) p' (l ++ o').
Proof.
  intros b p l c p' o' (rs & E & R & RUN & I & RE) NE L C. destruct (run_snoc _ _ _ _ _ _ R RUN NE L C) as (A & B). exists (rs ++ [c]).
  split; [rewrite concat_app, E; cbn; now rewrite app_nil_r|]. split; [exact A|]. split; [exact B|].
  destruct (consume_inv p c I NE L) as (_ & F & _). destruct (F _ _ _ C) as (X & Y & _). split; auto. now rewrite Y.
Qed.

Definition dangerous (bytes : list N) : Prop := exists b r p l x, bytes = b ++ r /\ fed b p l /\ In (ToEvent x) l.

Lemma skipn_lt : forall n (l : list N) fuel, (1 <= n)%nat -> l <> [] -> (List.length l < S fuel)%nat -> (List.length (skipn n l) < fuel)%nat.
Proof. intros n [|x l] fuel A B C; [now elim B|]. rewrite skipn_length. cbn [List.length] in *. lia. Qed.
Lemma firstn_le : forall n (l : list N) k, N.of_nat n <= k -> lenN (firstn n l) <= k.
Proof. intros n l k A. unfold lenN. rewrite firstn_length. lia. Qed.
Lemma some_bytes : forall a k, 1 <= k -> (1 <= Nat.min (Nat.max 1 a) (N.to_nat k))%nat /\ N.of_nat (Nat.min (Nat.max 1 a) (N.to_nat k)) <= k.
Proof. intros a k H. split; lia. Qed.
Lemma not_zero : forall k, 1 <= k -> (k =? 0) = false.
Proof. intros k H. lia. Qed.
Lemma firstn_some : forall n x (l : list N), (1 <= n)%nat -> firstn n (x :: l) <> [].
Proof. intros [|n] x l H; [lia|discriminate]. Qed.

Lemma reading : forall fuel d b l, (List.length (inbox d) < fuel)%nat -> fed b (h4 d) l ->
  match on_data_ready fuel d with
  | Ok (d', o) => removals o = 0%nat /\ present d' = present d /\ ended d' = ended d /\ broken d' = broken d /\
      (exists c, inbox d = c ++ inbox d' /\ fed (b ++ c) (h4 d') (l ++ handed o)) /\
      ((opened d' = opened d /\ scheduled d' = scheduled d /\ opened d = true /\ inbox d' = [] /\ ended d = false /\ broken d = None) \/
       (opened d' = false /\ scheduled d' = S (scheduled d) /\ (opened d = true -> broken d = None -> inbox d' = [] /\ ended d = true) /\
         (opened d = false \/ broken d <> None -> inbox d' = inbox d)))
  | Abort => opened d = true /\ (broken d = Some OtherError \/ (broken d = None /\ dangerous (b ++ inbox d)))
  | _ => False
  end.
Proof.
  induction fuel as [|fuel IH]; intros d b l F FE; [inversion F|]. cbn [Transport.on_data_ready].
  assert (CL : forall d' o, close d = (d', o) -> (opened d = true -> broken d = None -> inbox d = [] /\ ended d = true) ->
    removals o = 0%nat /\ present d' = present d /\ ended d' = ended d /\ broken d' = broken d /\
      (exists c, inbox d = c ++ inbox d' /\ fed (b ++ c) (h4 d') (l ++ handed o)) /\
      ((opened d' = opened d /\ scheduled d' = scheduled d /\ opened d = true /\ inbox d' = [] /\ ended d = false /\ broken d = None) \/
       (opened d' = false /\ scheduled d' = S (scheduled d) /\ (opened d = true -> broken d = None -> inbox d' = [] /\ ended d = true) /\
         (opened d = false \/ broken d <> None -> inbox d' = inbox d)))).
  { intros d' o E G. apply close_link in E. destruct E as (A & B & C). unfold link in A. injection A as A1 A2 A3 A4 A5 A6 A7. rewrite A1, A3, A4, A5, A6, A7, B, C.
    do 4 (split; [auto; fail|]). split; [exists []; rewrite !app_nil_r; auto|]. right. rewrite A2. split; [reflexivity|]. split; [reflexivity|]. split; auto. }
  destruct (opened d) eqn:OP; cbn [negb]. 2:{ destruct (close d) as [d' o] eqn:E. apply CL; auto. discriminate. }
  destruct FE as (rs & FE1 & FE2 & FE3 & FE4 & FE5). assert (FE : fed b (h4 d) l) by (exists rs; auto). pose proof (inv_requests _ FE4) as RQ.
  rewrite (not_zero _ RQ).
  destruct (broken d) as [[]|] eqn:BR.
  - destruct (close d) as [d' o] eqn:E. apply CL; auto. discriminate.
  - auto.
  - destruct (inbox d) as [|x rest] eqn:IN.
    + destruct (ended d) eqn:EN.
      * destruct (close d) as [d' o] eqn:E. apply CL; auto.
      * do 4 (split; [auto; fail|]). split; [exists []; change (handed []) with (@nil delivery); rewrite IN, !app_nil_r; auto|]. left. rewrite IN. auto 10.
    + rewrite <- IN in *. set (n := Nat.min (Nat.max 1 (gives (reads W d))) (N.to_nat (bytes_requested (h4 d)))).
      destruct (some_bytes (gives (reads W d)) _ RQ) as (N1 & N2). fold n in N1, N2. clearbody n.
      assert (NE : firstn n (inbox d) <> []). { rewrite IN. now apply firstn_some. }
      assert (LE : lenN (firstn n (inbox d)) <= bytes_requested (h4 d)) by now apply firstn_le.
      destruct (consume_inv _ _ FE4 NE LE) as (C & _ & _). destruct (C FE5) as (p' & o' & C'). rewrite C'.
      pose proof (fed_step _ _ _ _ _ _ FE NE LE C') as FE'.
      pose proof (dispatch_all_result o' (with_read W p' (skipn n (inbox d)) d)) as DR.
      destruct (dispatch_all o' _) as [[d1 o1]| | |] eqn:DA; try contradiction.
      * apply dispatch_all_link in DA. destruct DA as (A & B & CC). unfold link in A. cbn in A. injection A as A1 A2 A3 A4 A5 A6 A7.
        assert (L1 : (List.length (inbox d1) < fuel)%nat). { rewrite A3. apply skipn_lt; auto. now rewrite IN. }
        rewrite <- A1 in FE'. specialize (IH d1 _ _ L1 FE'). rewrite A2, A3, A4, A5, A6, A7 in IH. rewrite OP, BR in IH.
        rewrite <- app_assoc, (firstn_skipn n (inbox d)) in IH.
        destruct (on_data_ready fuel d1) as [[d2 o2]| | |]; try contradiction; auto.
        destruct IH as (I1 & I2 & I3 & I4 & (c & I5 & I6) & I7). rewrite removals_app, handed_app, B, CC.
        split; [now rewrite I1|]. split; [auto|]. split; [auto|]. split; [auto|]. split.
        -- exists (firstn n (inbox d) ++ c). rewrite <- !app_assoc in *. split; [|exact I6]. rewrite <- I5. now rewrite firstn_skipn.
        -- destruct I7 as [I7|(I7 & I8 & I9 & _)]; [left; tauto|right]. split; [exact I7|]. split; [exact I8|]. split; [auto|]. intros [Z|Z]; [discriminate|now elim Z].
      * split; [auto|]. right. split; [auto|]. destruct DR as (x0 & I0). exists (b ++ firstn n (inbox d)), (skipn n (inbox d)), p', (l ++ o'), x0.
        split; [now rewrite <- app_assoc, firstn_skipn|]. split; [exact FE'|]. apply in_or_app. now right.
Qed.

(** ** Histories *)
Record rel (pre : list op) (outs : list output) (d : device) : Prop := Rel {
  r_fed : exists b rest, written pre = b ++ rest /\ fed b (h4 d) (handed outs) /\ (broken d = None -> rest = inbox d);
  r_live : existsb hangs pre = false -> ended d = false /\ broken d = None /\ opened d = true;
  r_hung : existsb hangs pre = true -> ended d = true \/ broken d <> None;
  r_whole : existsb breaks pre = false -> broken d = None;
  r_other : broken d = Some OtherError -> In (Breaks OtherError) pre;
  r_closed : opened d = false -> broken d = None -> ended d = true /\ inbox d = [];
  r_up : opened d = true -> scheduled d = 0%nat /\ present d = true;
  r_due : opened d = false -> present d = true -> (1 <= scheduled d)%nat;
  r_removed : removals outs = if present d then 0%nat else 1%nat }.

Lemma written_app : forall pre o, written (pre ++ [o]) = if existsb hangs pre then written pre else written pre ++ written [o].
Proof.
  induction pre as [|x pre IH]; intros o; [reflexivity|]. cbn [app written existsb]. destruct x; cbn [hangs orb]; try reflexivity; try (now rewrite IH).
  rewrite IH. destruct (existsb hangs pre); [reflexivity|]. now rewrite app_assoc.
Qed.
Lemma rel_start : forall w, rel [] [] (new_device w).
Proof.
  intros w. split; cbn; auto; try discriminate. exists [], []. split; auto. split; auto. exists []. repeat split; auto.
Qed.
Lemma rel_keep : forall pre outs d d' out o, rel pre outs d -> link d' = link d -> handed out = [] -> removals out = 0%nat ->
  hangs o = false -> written [o] = [] -> rel (pre ++ [o]) (outs ++ out) d'.
Proof.
  intros pre outs d d' out o R L H1 H2 NH NW. unfold link in L. injection L as L1 L2 L3 L4 L5 L6 L7.
  assert (NB : breaks o = false) by now destruct o.
  destruct R. split; rewrite ?handed_app, ?removals_app, ?H1, ?H2, ?existsb_app, ?L1, ?L2, ?L3, ?L4, ?L5, ?L6, ?L7, ?app_nil_r; cbn [existsb]; rewrite ?NH, ?NB, ?orb_false_r; auto.
  - rewrite written_app, NW, app_nil_r. destruct (existsb hangs pre); auto.
  - intros E. apply in_or_app. left. auto.
  - rewrite Nat.add_0_r; auto.
Qed.
Lemma rel_step : forall pre outs d o, rel pre outs d ->
  match step d o with
  | Ok (d', out) => rel (pre ++ [o]) (outs ++ out) d'
  | Abort => In (Breaks OtherError) pre \/ dangerous (written pre)
  | _ => False
  end.
Proof.
  intros pre outs d o R. destruct o as [b| |e| |]; cbn [Transport.step].
  - (* HostWrites *)
    destruct R. destruct (ended d || negb (opened d)) eqn:E.
    + split; rewrite ?handed_app, ?removals_app, ?existsb_app, ?app_nil_r; cbn [existsb hangs breaks]; rewrite ?orb_false_r; auto.
      * rewrite written_app. destruct (existsb hangs pre) eqn:X; auto. destruct (r_live0 eq_refl) as (A & B & C). rewrite A, C in E. discriminate.
      * intros F. apply in_or_app. auto.
      * cbn; rewrite Nat.add_0_r; auto.
    + apply orb_false_iff in E. destruct E as (E1 & E2). apply negb_false_iff in E2.
      split; rewrite ?handed_app, ?removals_app, ?existsb_app, ?app_nil_r; cbn [existsb hangs breaks Transport.h4 Transport.opened Transport.inbox Transport.ended Transport.broken Transport.scheduled Transport.present]; rewrite ?orb_false_r; auto.
      * rewrite written_app. destruct r_fed0 as (b0 & rest & F1 & F2 & F3). destruct (existsb hangs pre) eqn:X.
        -- exists b0, rest. split; auto. split; auto. intros Z. destruct (r_hung0 eq_refl) as [Y|Y]; congruence.
        -- exists b0, (rest ++ b). rewrite F1, <- app_assoc. cbn [written]. rewrite app_nil_r. split; auto. split; auto. intros Z. now rewrite F3.
      * intros F. apply in_or_app. auto.
      * congruence.
      * cbn; rewrite Nat.add_0_r; auto.
  - (* HostCloses *)
    destruct R. split; rewrite ?handed_app, ?removals_app, ?existsb_app, ?app_nil_r; cbn [existsb hangs breaks Transport.h4 Transport.opened Transport.inbox Transport.ended Transport.broken Transport.scheduled Transport.present]; rewrite ?orb_true_r, ?orb_false_r; auto; try discriminate.
    + rewrite written_app. cbn [written]. rewrite app_nil_r. destruct (existsb hangs pre); auto.
    + intros F. apply in_or_app. auto.
    + intros F G. destruct (r_closed0 F G). auto.
    + cbn; rewrite Nat.add_0_r; auto.
  - (* Breaks *)
    destruct R. split; rewrite ?handed_app, ?removals_app, ?existsb_app, ?app_nil_r; cbn [existsb hangs breaks Transport.h4 Transport.opened Transport.inbox Transport.ended Transport.broken Transport.scheduled Transport.present]; rewrite ?orb_true_r, ?orb_false_r; auto; try discriminate.
    + rewrite written_app. cbn [written]. rewrite app_nil_r. destruct r_fed0 as (b0 & rest & F1 & F2 & F3). exists b0, rest. destruct (existsb hangs pre); split; auto; split; auto; discriminate.
    + intros _. right. discriminate.
    + intros F. injection F as ->. apply in_or_app. right. now left.
    + cbn; rewrite Nat.add_0_r; auto.
  - (* Tick *)
    destruct (present d) eqn:PR. 2:{ apply (rel_keep _ _ d); auto. }
    unfold Transport.tick. destruct (r_fed _ _ _ R) as (b & rest & F1 & F2 & F3).
    pose proof (reading (S (List.length (inbox d))) d b (handed outs) (Nat.lt_succ_diag_r _) F2) as RD.
    destruct (on_data_ready (S (List.length (inbox d))) d) as [[d1 o1]| | |]; try contradiction.
    + destruct RD as (R1 & R2 & R3 & R4 & (c & R5 & R6) & R7).
      destruct (work (world d1)) as [w l]. destruct (send_all l _) as [d2 o2] eqn:SA. apply send_all_link in SA. destruct SA as (A & B & C).
      unfold link in A. cbn in A. injection A as A1 A2 A3 A4 A5 A6 A7.
      destruct R. split; rewrite ?handed_app, ?removals_app, ?existsb_app, ?A1, ?A2, ?A3, ?A4, ?A5, ?A6, ?A7, ?B, ?C, ?R1, ?R2, ?R3, ?R4, ?app_nil_r; cbn [existsb hangs breaks]; rewrite ?orb_false_r; auto.
      * assert (WR : written (pre ++ [Tick]) = written pre). { rewrite written_app. cbn [written]. rewrite app_nil_r. now destruct (existsb hangs pre). } rewrite WR.
        destruct (broken d) eqn:BR.
        -- destruct R7 as [(X1 & X2 & X3 & X4 & X5 & X6)|(X1 & X2 & X3 & X4)]; [discriminate|]. assert (Y : inbox d1 = inbox d) by (apply X4; right; discriminate).
           rewrite Y in R5. destruct c as [|z c]. 2:{ exfalso. assert (Q : List.length (inbox d) = List.length ((z :: c) ++ inbox d)) by now rewrite <- R5. rewrite app_length in Q. cbn in Q. clear - Q; lia. }
           rewrite app_nil_r in R6. exists b, rest. split; auto. split; auto. discriminate.
        -- exists (b ++ c), (inbox d1). rewrite <- app_assoc, <- R5, <- F3 by auto. auto.
      * intros X. destruct (r_live0 X) as (Y1 & Y2 & Y3). split; auto. split; auto. destruct R7 as [(X1 & _)|(_ & _ & X9 & _)]; [now rewrite X1|]. destruct (X9 Y3 Y2). congruence.
      * intros F. apply in_or_app. auto.
      * intros X Y. destruct R7 as [(X1 & X2 & X3 & _)|(X1 & X2 & X3 & X4)]; [congruence|]. destruct (opened d) eqn:O.
        -- destruct (X3 eq_refl Y). auto.
        -- destruct (r_closed0 eq_refl Y) as (Z1 & Z2). rewrite X4 by auto. auto.
      * intros X. destruct R7 as [(X1 & X2 & X3 & _)|(X1 & X2 & X3 & X4)]; [|congruence]. rewrite X2. split; auto. now apply r_up0.
      * intros X _. destruct R7 as [(X1 & X2 & X3 & _)|(X1 & X2 & X3 & X4)]; [congruence|]. rewrite X2. apply le_n_S, Nat.le_0_l.
      * rewrite !Nat.add_0_r. rewrite PR in r_removed0. now rewrite PR.
    + destruct RD as (O & [E|(E & D)]); [left; now apply (r_other _ _ _ R)|]. right. rewrite F1, F3 by auto. exact D.
  - (* RunTask *)
    destruct (scheduled d) as [|k] eqn:SC. { apply (rel_keep _ _ d); auto. }
    assert (OP : opened d = false). { destruct (opened d) eqn:OP; auto. destruct (r_up _ _ _ R OP). congruence. }
    assert (WR : written (pre ++ [RunTask]) = written pre). { rewrite written_app. cbn [written]. rewrite app_nil_r. now destruct (existsb hangs pre). }
    unfold on_connection_closed. destruct R. destruct (present d) eqn:PR;
      (split; rewrite ?handed_app, ?removals_app, ?existsb_app; cbn [existsb hangs breaks Transport.h4 Transport.opened Transport.inbox Transport.ended Transport.broken Transport.scheduled Transport.present];
       [rewrite WR; cbn; rewrite app_nil_r; exact r_fed0|rewrite orb_false_r; auto|rewrite orb_false_r; auto|rewrite orb_false_r; auto|intros F; apply in_or_app; auto|auto|rewrite OP; discriminate|congruence|rewrite r_removed0; reflexivity]).
Qed.
Lemma steps_app : forall l1 l2 d, steps d (l1 ++ l2) = match steps d l1 with Ok (d', o) => match steps d' l2 with Ok (d'', o') => Ok (d'', o ++ o') | r => r end | r => r end.
Proof.
  induction l1 as [|x l1 IH]; intros l2 d; cbn [app Transport.steps]. { destruct (steps d l2) as [[d' o]| | |]; auto. }
  destruct (step d x) as [[d1 o1]| | |]; auto. rewrite IH. destruct (steps d1 l1) as [[d2 o2]| | |]; auto.
  destruct (steps d2 l2) as [[d3 o3]| | |]; auto. now rewrite app_assoc.
Qed.
Lemma dangerous_app : forall a b, dangerous a -> dangerous (a ++ b).
Proof. intros a b (x & r & p & l & e & E & F & I). exists x, (r ++ b), p, l, e. rewrite E, app_assoc. auto. Qed.
Lemma written_prefix : forall a b, exists c, written (a ++ b) = written a ++ c.
Proof.
  induction a as [|x a IH]; intros b; [exists (written b); reflexivity|]. destruct (IH b) as (c & E). cbn [app written]. destruct x; try (exists []; now rewrite ?app_nil_r); try (exists c; exact E).
  exists c. now rewrite E, app_assoc.
Qed.
Theorem steps_rel : forall l pre outs d, rel pre outs d ->
  match steps d l with
  | Ok (d', out) => rel (pre ++ l) (outs ++ out) d'
  | Abort => In (Breaks OtherError) (pre ++ l) \/ dangerous (written (pre ++ l))
  | _ => False
  end.
Proof.
  induction l as [|o l IH]; intros pre outs d R; cbn [Transport.steps]. { now rewrite !app_nil_r. }
  pose proof (rel_step pre outs d o R) as S. destruct (step d o) as [[d1 o1]| | |]; try contradiction.
  - specialize (IH _ _ _ S). rewrite <- !app_assoc in IH. cbn [app] in IH. destruct (steps d1 l) as [[d2 o2]| | |]; auto. now rewrite <- app_assoc in IH.
  - destruct S as [S|S]; [left; apply in_or_app; now left|]. right. destruct (written_prefix pre (o :: l)) as (c & ->). now apply dangerous_app.
Qed.
Lemma steps_start : forall w l,
  match steps (new_device w) l with
  | Ok (d', out) => rel l out d'
  | Abort => In (Breaks OtherError) l \/ dangerous (written l)
  | _ => False
  end.
Proof. intros w l. exact (steps_rel l [] [] _ (rel_start w)). Qed.

(** ** No event reaches the controller *)
Lemma reading_no_event : forall fuel d d' o x, on_data_ready fuel d = Ok (d', o) -> ~ In (ToEvent x) (handed o).
Proof.
  induction fuel as [|fuel IH]; intros d d' o x H; [discriminate|]. cbn [Transport.on_data_ready] in H.
  assert (CL : forall d1 o1, close d = (d1, o1) -> ~ In (ToEvent x) (handed o1)). { intros d1 o1 E. apply close_link in E. destruct E as (_ & -> & _). auto. }
  destruct (opened d); cbn [negb] in H. 2:{ destruct (close d) as [d1 o1]. injection H as <- <-. eapply CL; eauto. }
  destruct (bytes_requested (h4 d) =? 0). { destruct (close d) as [d1 o1]. injection H as <- <-. eapply CL; eauto. }
  destruct (broken d) as [[]|]; [destruct (close d) as [d1 o1]; injection H as <- <-; eapply CL; eauto|discriminate|].
  destruct (inbox d) as [|y rest] eqn:IN.
  - destruct (ended d); [destruct (close d) as [d1 o1]; injection H as <- <-; eapply CL; eauto|]. injection H as <- <-. auto.
  - rewrite <- IN in *. destruct (consume (h4 d) _) as [r q m| |]; try discriminate.
    pose proof (dispatch_all_result m (with_read W q (skipn (Nat.min (Nat.max 1 (gives (reads W d))) (N.to_nat (bytes_requested (h4 d)))) (inbox d)) d)) as DR.
    destruct (dispatch_all m _) as [[d1 o1]| | |] eqn:DA; try discriminate. apply dispatch_all_link in DA. destruct DA as (_ & B & _).
    destruct (on_data_ready fuel d1) as [[d2 o2]| | |] eqn:E2; try discriminate. injection H as <- <-. rewrite handed_app, B. intros I. apply in_app_or in I. destruct I as [I|I]; [now apply (DR x)|].
    now apply (IH _ _ _ x E2).
Qed.
Lemma step_no_event : forall d o d' out x, step d o = Ok (d', out) -> ~ In (ToEvent x) (handed out).
Proof.
  intros d o d' out x H. destruct o; cbn [Transport.step] in H.
  - destruct (ended d || negb (opened d)); injection H as <- <-; auto.
  - injection H as <- <-; auto.
  - injection H as <- <-; auto.
  - destruct (present d); [|injection H as <- <-; auto]. unfold Transport.tick in H. destruct (on_data_ready _ d) as [[d1 o1]| | |] eqn:E; try discriminate.
    destruct (work (world d1)) as [w l]. destruct (send_all l _) as [d2 o2] eqn:SA. injection H as <- <-. apply send_all_link in SA. destruct SA as (_ & B & _).
    rewrite handed_app, B, app_nil_r. eapply reading_no_event; eauto.
  - destruct (scheduled d); [injection H as <- <-; auto|]. unfold on_connection_closed in H. destruct (present d); injection H as <- <-; auto.
Qed.
Lemma steps_no_event : forall l d d' out x, steps d l = Ok (d', out) -> ~ In (ToEvent x) (handed out).
Proof.
  induction l as [|o l IH]; intros d d' out x H; cbn [Transport.steps] in H; [injection H as <- <-; auto|].
  destruct (step d o) as [[d1 o1]| | |] eqn:E1; try discriminate. destruct (steps d1 l) as [[d2 o2]| | |] eqn:E2; try discriminate. injection H as <- <-.
  rewrite handed_app. intros I. apply in_app_or in I. destruct I as [I|I]; [now apply (step_no_event _ _ _ _ x E1)|now apply (IH _ _ _ x E2)].
Qed.

(** ** What is fed is a parse *)
Lemma fed_run : forall b p l, fed b p l -> H4.run (init true) (singles b) = Done true p l.
Proof. intros b p l (rs & <- & R & E & _). now rewrite <- respects_bytewise. Qed.
Lemma fed_prefix : forall b rest p l ps, fed b p l -> parses (b ++ rest) ps -> exists m, map deliver ps = l ++ m.
Proof.
  intros b rest p l ps F P. apply fed_run in F. destruct (parses_run _ _ P (init true) eq_refl eq_refl) as (p' & E & _).
  rewrite singles_app, run_app, F in E. cbn [bindo] in E. destruct (H4.run p (singles rest)) as [r q m| |]; try discriminate. injection E as _ _ <-. now exists m.
Qed.
Lemma prefix_firstn : forall ps l m, map deliver ps = l ++ m -> exists n, l = map deliver (firstn n ps).
Proof. intros ps l m E. exists (List.length l). rewrite <- firstn_map, E. rewrite firstn_app, Nat.sub_diag, firstn_all. cbn. now rewrite app_nil_r. Qed.
Lemma deliver_event : forall x ps, In (ToEvent x) (map deliver ps) -> exists c q, In (Event c q) ps.
Proof. intros x ps I. apply in_map_iff in I. destruct I as (k & E & I). destruct k; try discriminate. eauto. Qed.
Lemma event_deliver : forall c q ps, In (Event c q) ps -> exists x, In (ToEvent x) (map deliver ps).
Proof. intros c q ps I. exists (body (Event c q)). apply in_map_iff. now exists (Event c q). Qed.
Lemma from_host_no_event : forall ps c q, forallb from_host ps = true -> ~ In (Event c q) ps.
Proof. intros ps c q F I. eapply forallb_forall in F; eauto. discriminate. Qed.
Lemma not_dangerous : forall bytes tail ps, parses (bytes ++ tail) ps -> forallb from_host ps = true -> ~ dangerous bytes.
Proof.
  intros bytes tail ps P F (b & r & p & l & x & -> & FE & I). rewrite <- app_assoc in P. destruct (fed_prefix _ _ _ _ _ FE P) as (m & E).
  destruct (deliver_event x ps) as (c & q & J); [rewrite E; apply in_or_app; now left|]. now apply (from_host_no_event ps c q F).
Qed.

Theorem arrives_in_order : forall w l tail ps, parses (written l ++ tail) ps -> forallb from_host ps = true -> ~ In (Breaks OtherError) l ->
  exists d out n, steps (new_device w) l = Ok (d, out) /\ handed out = map deliver (firstn n ps).
Proof.
  intros w l tail ps P F B. pose proof (steps_start w l) as S. destruct (steps (new_device w) l) as [[d out]| | |]; try contradiction.
  - destruct (r_fed _ _ _ S) as (b & rest & E1 & E2 & _). rewrite E1, <- app_assoc in P. destruct (fed_prefix _ _ _ _ _ E2 P) as (m & E).
    destruct (prefix_firstn _ _ _ E) as (n & E'). exists d, out, n. auto.
  - destruct S as [S|S]; [contradiction|]. exfalso. eapply not_dangerous; eauto.
Qed.

(** A tick without an error reads everything *)
Lemma tick_reads_all : forall pre outs d d' o, rel pre outs d -> broken d = None -> step d Tick = Ok (d', o) -> inbox d' = [].
Proof.
  intros pre outs d d' o R B H. cbn [Transport.step] in H. destruct (present d) eqn:PR.
  - unfold Transport.tick in H. destruct (r_fed _ _ _ R) as (b & rest & _ & F2 & _).
    pose proof (reading (S (List.length (inbox d))) d b (handed outs) (Nat.lt_succ_diag_r _) F2) as RD.
    destruct (on_data_ready _ d) as [[d1 o1]| | |]; try discriminate. destruct RD as (_ & _ & _ & _ & _ & R7).
    destruct (work (world d1)) as [w l]. destruct (send_all l _) as [d2 o2] eqn:SA. injection H as <- <-. apply send_all_link in SA. destruct SA as (A & _).
    unfold link in A. cbn in A. injection A as _ _ -> _ _ _ _. destruct R7 as [(_ & _ & _ & X & _)|(_ & _ & X & Y)]; auto.
    destruct (opened d) eqn:OP; [now apply X|]. rewrite Y by auto. now apply (r_closed _ _ _ R).
  - injection H as <- <-. destruct (opened d) eqn:OP. { destruct (r_up _ _ _ R OP). congruence. } now apply (r_closed _ _ _ R).
Qed.
Lemma steps_tick : forall w l d out, existsb breaks l = false -> steps (new_device w) (l ++ [Tick]) = Ok (d, out) ->
  fed (written l) (h4 d) (handed out).
Proof.
  intros w l d out B H. pose proof (steps_start w (l ++ [Tick])) as S. rewrite H in S. rewrite steps_app in H. pose proof (steps_start w l) as S0.
  destruct (steps (new_device w) l) as [[d0 out0]| | |]; try discriminate. cbn [Transport.steps] in H. destruct (step d0 Tick) as [[d1 o1]| | |] eqn:E; try discriminate.
  injection H as <- <-. pose proof (r_whole _ _ _ S0 B) as BR. pose proof (tick_reads_all _ _ _ _ _ S0 BR E) as IN.
  destruct (r_fed _ _ _ S) as (b & rest & F1 & F2 & F3). rewrite IN in F3. rewrite F3, app_nil_r in F1.
  - subst b. rewrite written_app in F2. cbn [written] in F2. rewrite app_nil_r in F2. now destruct (existsb hangs l).
  - apply (r_whole _ _ _ S). rewrite existsb_app, B. reflexivity.
Qed.
Theorem arrives_all : forall w l s part rest k ps, parses s ps -> forallb from_host ps = true -> wf_packet k = true -> encode k = part ++ rest -> rest <> [] ->
  from_host k = true -> written l = s ++ part -> existsb breaks l = false ->
  exists d out, steps (new_device w) (l ++ [Tick]) = Ok (d, out) /\ handed out = map deliver ps.
Proof.
  intros w l s part rest k ps P F WK EK NR FK WR B.
  assert (WT : written (l ++ [Tick]) = s ++ part). { rewrite written_app. cbn [written]. rewrite app_nil_r. now destruct (existsb hangs l). }
  assert (P2 : parses (written (l ++ [Tick]) ++ rest) (ps ++ [k])). { rewrite WT, <- app_assoc, <- EK. apply parses_app; auto. rewrite <- (app_nil_r (encode k)). apply parses_packet; auto. constructor. }
  destruct (arrives_in_order w (l ++ [Tick]) rest (ps ++ [k]) P2) as (d & out & n & S & _).
  - rewrite forallb_app, F. cbn. now rewrite FK.
  - intros I. apply in_app_or in I. destruct I as [I|[I|[]]]; [|discriminate]. assert (X : existsb breaks l = true) by (apply existsb_exists; exists (Breaks OtherError); auto). congruence.
  - exists d, out. split; auto. pose proof (steps_tick w l d out B S) as FE. apply fed_run in FE. rewrite WR, singles_app, run_app in FE.
    destruct (parses_run _ _ P (init true) eq_refl eq_refl) as (p' & E & R & _). rewrite E in FE. cbn [bindo] in FE.
    destruct (mid_run k part rest p' WK EK NR R) as (p2 & E2 & _). rewrite E2 in FE. injection FE as _ FE. now rewrite app_nil_r in FE.
Qed.

(** Any bytes at all *)
Lemma fed_parse : forall b rest p l, fed b p l -> forallb is_byte (b ++ rest) = true -> exists s t ks, b = s ++ t /\ parses s ks /\ l = map deliver ks.
Proof.
  intros b rest p l F B. rewrite forallb_app in B. apply andb_true_iff in B. destruct B as (B & _). apply fed_run in F.
  destruct (run_sound b (init true) eq_refl eq_refl B) as (p' & ks & t & s & E & S & P & _). rewrite F in E. injection E as _ ->. eauto 10.
Qed.
Theorem any_bytes : forall w l, forallb is_byte (written l) = true ->
  match steps (new_device w) l with
  | Ok (d, out) => exists s rest ps, written l = s ++ rest /\ parses s ps /\ handed out = map deliver ps /\ forallb from_host ps = true
  | Abort => In (Breaks OtherError) l \/ exists s rest ps, written l = s ++ rest /\ parses s ps /\ forallb from_host ps = false
  | _ => False
  end.
Proof.
  intros w l B. pose proof (steps_start w l) as S. destruct (steps (new_device w) l) as [[d out]| | |] eqn:ST; try contradiction.
  - destruct (r_fed _ _ _ S) as (b & rest & E1 & E2 & _). rewrite E1 in B. destruct (fed_parse _ _ _ _ E2 B) as (s & t & ks & E & P & H).
    exists s, (t ++ rest), ks. rewrite E1, E, app_assoc. split; auto. split; auto. split; auto. apply forallb_forall. intros k I. destruct k; auto. exfalso.
    destruct (event_deliver _ _ _ I) as (x & J). rewrite <- H in J. now apply (steps_no_event _ _ _ _ _ ST) in J.
  - destruct S as [S|S]; [now left|]. right. destruct S as (b & r & p & m & x & E & F & I). rewrite E in B. destruct (fed_parse _ _ _ _ F B) as (s & t & ks & E' & P & H).
    exists s, (t ++ r), ks. rewrite E, E', app_assoc. split; auto. split; auto. rewrite H in I. destruct (deliver_event _ _ I) as (c & q & J).
    destruct (forallb from_host ks) eqn:FH; auto. now apply (from_host_no_event ks c q FH) in J.
Qed.
Theorem aborts_on_event : forall w l s rest ps, existsb breaks l = false -> written l = s ++ rest -> parses s ps -> forallb from_host ps = false ->
  steps (new_device w) (l ++ [Tick]) = Abort.
Proof.
  intros w l s rest ps B E P F. pose proof (steps_start w (l ++ [Tick])) as S. destruct (steps (new_device w) (l ++ [Tick])) as [[d out]| | |] eqn:ST; try contradiction; auto.
  exfalso. pose proof (steps_tick w l d out B ST) as FE. apply fed_run in FE. rewrite E, singles_app, run_app in FE.
  destruct (parses_run _ _ P (init true) eq_refl eq_refl) as (p' & E1 & R & _). rewrite E1 in FE. cbn [bindo] in FE. destruct (H4.run p' (singles rest)) as [r q m| |]; try discriminate.
  injection FE as _ _ FE. assert (X : exists c q, In (Event c q) ps).
  { clear - F. induction ps as [|k ps IH]; [discriminate|]. cbn [forallb] in F. apply andb_false_iff in F. destruct F as [F|F].
    - destruct k; try discriminate. exists code, params. now left.
    - destruct (IH F) as (c & q & I). exists c, q. now right. }
  destruct X as (c & q0 & I). destruct (event_deliver _ _ _ I) as (x & J). apply (steps_no_event _ _ _ _ x ST). rewrite <- FE. apply in_or_app. now left.
Qed.

(** ** What the host receives *)
Definition is_up (d : device) : Prop := opened d = true /\ ended d = false /\ broken d = None.
Lemma dropped_app : forall a b, dropped (a ++ b) = dropped a ++ dropped b.
Proof. intros. apply flat_map_app. Qed.
Lemma send_up : forall t b d d' o, is_up d -> send t b d = (d', o) -> is_up d' /\ dropped o = [].
Proof.
  intros t b d d' o (A & B & C) H. unfold Transport.send, connected in H. rewrite A, B, C in H. cbn [andb] in H.
  assert (X : match inbox d with _ :: _ => true | [] => true end = true) by now destruct (inbox d). 
  destruct (inbox d); injection H as <- <-; repeat split; auto.
Qed.
Lemma send_all_up : forall l d d' o, is_up d -> send_all l d = (d', o) -> is_up d' /\ dropped o = [].
Proof.
  induction l as [|[t b] l IH]; intros d d' o U H; cbn [Transport.send_all] in H; [injection H as <- <-; auto|].
  destruct (send t b d) as [d1 o1] eqn:E1. destruct (send_all l d1) as [d2 o2] eqn:E2. injection H as <- <-.
  apply send_up in E1; auto. destruct E1 as (A & B). apply IH in E2; auto. destruct E2 as (C & D). rewrite dropped_app, B, D. auto.
Qed.
Lemma dispatch_all_up : forall l d d' o, is_up d -> dispatch_all l d = Ok (d', o) -> is_up d' /\ dropped o = [].
Proof.
  induction l as [|x l IH]; intros d d' o U H; cbn [Transport.dispatch_all] in H; [injection H as <- <-; auto|].
  destruct (dispatch x d) as [[d1 o1]| | |] eqn:E1; try discriminate. destruct (dispatch_all l d1) as [[d2 o2]| | |] eqn:E2; try discriminate. injection H as <- <-.
  assert (G : is_up d1 /\ dropped o1 = []).
  { assert (G : forall y, (let (w, l) := handle y (world d) in let (d, o) := send_all l (with_world W w d) in Ok (d, Handed y :: o)) = Ok (d1, o1) -> is_up d1 /\ dropped o1 = []).
    { intros y G. destruct (handle y (world d)) as [w m]. destruct (send_all m _) as [d3 o3] eqn:E. injection G as <- <-. apply send_all_up in E; auto. }
    unfold Transport.dispatch in E1. destruct x; try discriminate; now apply G in E1. }
  destruct G as (A & B). apply IH in E2; auto. destruct E2 as (C & D). rewrite dropped_app, B, D. auto.
Qed.
Lemma reading_up : forall fuel d d' o, is_up d -> Inv (h4 d) -> on_data_ready fuel d = Ok (d', o) -> is_up d' /\ dropped o = [].
Proof.
  induction fuel as [|fuel IH]; intros d d' o U V H; [discriminate|]. cbn [Transport.on_data_ready] in H. destruct U as (A & B & C). assert (U : is_up d) by (repeat split; auto).
  pose proof (inv_requests _ V) as RQ. rewrite A, C in H. cbn [negb] in H. rewrite (not_zero _ RQ) in H.
  destruct (inbox d) as [|y rest] eqn:IN. { rewrite B in H. injection H as <- <-. auto. } rewrite <- IN in *.
  set (n := Nat.min (Nat.max 1 (gives (reads W d))) (N.to_nat (bytes_requested (h4 d)))) in *.
  destruct (some_bytes (gives (reads W d)) _ RQ) as (N1 & N2). fold n in N1, N2. clearbody n.
  assert (NE : firstn n (inbox d) <> []). { rewrite IN. now apply firstn_some. }
  assert (LE : lenN (firstn n (inbox d)) <= bytes_requested (h4 d)) by now apply firstn_le.
  destruct (consume_inv _ _ V NE LE) as (_ & V' & _). destruct (consume (h4 d) _) as [r q m| |]; try discriminate. destruct (V' _ _ _ eq_refl) as (V2 & _).
  destruct (dispatch_all m _) as [[d1 o1]| | |] eqn:DA; try discriminate. destruct (on_data_ready fuel d1) as [[d2 o2]| | |] eqn:E2; try discriminate. injection H as <- <-.
  pose proof (dispatch_all_link _ _ _ _ DA) as (L & _). unfold link in L. cbn in L. injection L as L1 _ _ _ _ _ _.
  apply dispatch_all_up in DA; [|exact U]. destruct DA as (X & Y). rewrite <- L1 in V2. destruct (IH _ _ _ X V2 E2) as (Z & T). rewrite dropped_app, Y, T. auto.
Qed.
Lemma steps_up : forall l d d' out, is_up d -> Inv (h4 d) -> scheduled d = 0%nat -> enable_recovery (h4 d) = true -> present d = true -> existsb hangs l = false -> steps d l = Ok (d', out) ->
  is_up d' /\ dropped out = [].
Proof.
  induction l as [|o l IH]; intros d d' out U V SC RE PR NH H; cbn [Transport.steps] in H; [injection H as <- <-; auto|].
  cbn [existsb] in NH. apply orb_false_iff in NH. destruct NH as (NH1 & NH2).
  destruct (step d o) as [[d1 o1]| | |] eqn:E1; try discriminate. destruct (steps d1 l) as [[d2 o2]| | |] eqn:E2; try discriminate. injection H as <- <-. rewrite dropped_app.
  assert (G : is_up d1 /\ dropped o1 = [] /\ Inv (h4 d1) /\ scheduled d1 = 0%nat /\ enable_recovery (h4 d1) = true /\ present d1 = true).
  { destruct o; cbn [Transport.step] in E1; try discriminate.
    - destruct (ended d || negb (opened d)); injection E1 as <- <-; repeat split; auto; apply U.
    - rewrite PR in E1. unfold Transport.tick in E1. destruct (on_data_ready _ d) as [[d3 o3]| | |] eqn:OD; try discriminate.
      destruct (work (world d3)) as [w m]. destruct (send_all m _) as [d4 o4] eqn:SA. injection E1 as <- <-.
      destruct (reading_up _ _ _ _ U V OD) as (X & Y). destruct X as (X1 & X2 & X3).
      assert (FD : fed [] (h4 d) [] \/ True) by now right. clear FD.
      destruct (send_all_up m (with_world W w d3) d4 o4) as (Z & T); [repeat split; auto|exact SA|]. rewrite dropped_app, Y, T.
      apply send_all_link in SA. destruct SA as (A & _). unfold link in A. cbn in A. injection A as -> _ _ _ _ -> ->.
      split; auto. split; auto. revert OD V RE SC PR U X1. clear. generalize (S (List.length (inbox d))) as fuel. intros fuel. revert d o3.
      induction fuel as [|fuel IH]; intros d o3 OD V RE SC PR (A & B & C) X1; [discriminate|]. cbn [Transport.on_data_ready] in OD. pose proof (inv_requests _ V) as RQ.
      rewrite A, C in OD. cbn [negb] in OD. rewrite (not_zero _ RQ) in OD.
      destruct (inbox d) as [|y rest] eqn:IN. { rewrite B in OD. injection OD as <- <-. auto. } rewrite <- IN in *.
      set (n := Nat.min (Nat.max 1 (gives (reads W d))) (N.to_nat (bytes_requested (h4 d)))) in *.
      destruct (some_bytes (gives (reads W d)) _ RQ) as (N1 & N2). fold n in N1, N2. clearbody n.
      assert (NE : firstn n (inbox d) <> []). { rewrite IN. now apply firstn_some. }
      assert (LE : lenN (firstn n (inbox d)) <= bytes_requested (h4 d)) by now apply firstn_le.
      destruct (consume_inv _ _ V NE LE) as (_ & V' & _). destruct (consume (h4 d) _) as [r q m0| |]; try discriminate. destruct (V' _ _ _ eq_refl) as (V2 & V3 & _).
      destruct (dispatch_all m0 _) as [[d1 o1]| | |] eqn:DA; try discriminate. destruct (on_data_ready fuel d1) as [[d2 o2]| | |] eqn:E2; try discriminate. injection OD as <- <-.
      pose proof (dispatch_all_link _ _ _ _ DA) as (L & _). unfold link in L. cbn in L. injection L as L1 L2 L3 L4 L5 L6 L7.
      eapply IH; eauto; try congruence. repeat split; congruence.
    - rewrite SC in E1. injection E1 as <- <-. repeat split; auto; apply U. }
  destruct G as (G1 & G2 & G3 & G4 & G5 & G6). destruct (IH _ _ _ G1 G3 G4 G5 G6 NH2 E2) as (A & B). rewrite G2, B. auto.
Qed.
Theorem nothing_dropped : forall w l d out, existsb hangs l = false -> steps (new_device w) l = Ok (d, out) ->
  opened d = true /\ dropped out = [] /\ removals out = 0%nat.
Proof.
  intros w l d out NH H. destruct (steps_up l (new_device w) d out) as (A & B); auto; try (repeat split; auto; fail); try exact Logic.I.
  pose proof (steps_start w l) as S. rewrite H in S. split; [apply A|]. split; auto. rewrite (r_removed _ _ _ S). destruct (r_up _ _ _ S) as (_ & ->); auto. apply A.
Qed.

(** ** Closing *)
Theorem removed_once : forall w l d out, steps (new_device w) l = Ok (d, out) ->
  (removals out <= 1)%nat /\ (removals out = 1%nat -> existsb hangs l = true).
Proof.
  intros w l d out H. pose proof (steps_start w l) as S. rewrite H in S. rewrite (r_removed _ _ _ S). destruct (present d) eqn:PR; split; auto; try discriminate.
  intros _. destruct (existsb hangs l) eqn:X; auto. destruct (r_live _ _ _ S X) as (_ & _ & O). destruct (r_up _ _ _ S O). congruence.
Qed.
Lemma tick_closes : forall pre outs d d' o, rel pre outs d -> existsb hangs pre = true -> step d Tick = Ok (d', o) -> opened d' = false.
Proof.
  intros pre outs d d' o R X H. cbn [Transport.step] in H. destruct (present d) eqn:PR.
  - unfold Transport.tick in H. destruct (r_fed _ _ _ R) as (b & rest & _ & F2 & _).
    pose proof (reading (S (List.length (inbox d))) d b (handed outs) (Nat.lt_succ_diag_r _) F2) as RD.
    destruct (on_data_ready _ d) as [[d1 o1]| | |]; try discriminate. destruct RD as (_ & _ & _ & _ & _ & R7).
    destruct (work (world d1)) as [w l]. destruct (send_all l _) as [d2 o2] eqn:SA. injection H as <- <-. apply send_all_link in SA. destruct SA as (A & _).
    unfold link in A. cbn in A. injection A as _ -> _ _ _ _ _. destruct R7 as [(_ & _ & _ & _ & Y & Z)|(Y & _)]; auto. destruct (r_hung _ _ _ R X); congruence.
  - injection H as <- <-. destruct (opened d) eqn:OP; auto. destruct (r_up _ _ _ R OP). congruence.
Qed.
Theorem closes : forall w l d out, existsb hangs l = true -> steps (new_device w) (l ++ [Tick; RunTask]) = Ok (d, out) ->
  opened d = false /\ removals out = 1%nat.
Proof.
  intros w l d out X H. change [Tick; RunTask] with ([Tick] ++ [RunTask]) in H. rewrite app_assoc in H. rewrite steps_app in H. pose proof (steps_start w (l ++ [Tick])) as S.
  destruct (steps (new_device w) (l ++ [Tick])) as [[d1 o1]| | |] eqn:E1; try discriminate.
  assert (O : opened d1 = false). { rewrite steps_app in E1. pose proof (steps_start w l) as S0. destruct (steps (new_device w) l) as [[d0 o0]| | |]; try discriminate.
    cbn [Transport.steps] in E1. destruct (step d0 Tick) as [[d2 o2]| | |] eqn:E2; try discriminate. injection E1 as <- <-. eapply tick_closes; eauto. }
  cbn [Transport.steps Transport.step] in H. pose proof (r_removed _ _ _ S) as RM. destruct (scheduled d1) eqn:SC.
  - destruct (present d1) eqn:PR. { pose proof (r_due _ _ _ S O PR) as D. rewrite SC in D. inversion D. } injection H as <- <-. rewrite app_nil_r. auto.
  - unfold on_connection_closed in H. destruct (present d1); injection H as <- <-; cbn; rewrite ?removals_app, ?app_nil_r, RM; auto.
Qed.
Lemma send_all_closed : forall l d d' o, opened d = false -> send_all l d = (d', o) -> offered o = [] /\ received o = [].
Proof.
  induction l as [|[t b] l IH]; intros d d' o O H; cbn [Transport.send_all] in H; [injection H as <- <-; auto|].
  destruct (send t b d) as [d1 o1] eqn:E1. destruct (send_all l d1) as [d2 o2] eqn:E2. injection H as <- <-.
  pose proof (send_link _ _ _ _ _ E1) as (L & _). unfold link in L. injection L as _ L _ _ _ _ _.
  unfold Transport.send, connected in E1. rewrite O in E1. cbn [andb] in E1. injection E1 as <- <-. rewrite O in L. destruct (IH _ _ _ L E2) as (A & B). rewrite offered_app, received_app, A, B. auto.
Qed.
Theorem closed_quiet : forall l d d' out, opened d = false -> steps d l = Ok (d', out) -> opened d' = false /\ handed out = [] /\ offered out = [] /\ received out = [].
Proof.
  induction l as [|o l IH]; intros d d' out O H; cbn [Transport.steps] in H; [injection H as <- <-; auto|].
  destruct (step d o) as [[d1 o1]| | |] eqn:E1; try discriminate. destruct (steps d1 l) as [[d2 o2]| | |] eqn:E2; try discriminate. injection H as <- <-.
  assert (G : opened d1 = false /\ handed o1 = [] /\ offered o1 = [] /\ received o1 = []).
  { destruct o; cbn [Transport.step] in E1.
    - destruct (ended d || negb (opened d)); injection E1 as <- <-; auto.
    - injection E1 as <- <-; auto.
    - injection E1 as <- <-; auto.
    - destruct (present d); [|injection E1 as <- <-; auto]. unfold Transport.tick in E1. cbn [Transport.on_data_ready] in E1. rewrite O in E1. cbn [negb] in E1.
      destruct (close d) as [d3 o3] eqn:CL. destruct (work (world d3)) as [w m]. destruct (send_all m _) as [d4 o4] eqn:SA. injection E1 as <- <-.
      pose proof (close_link _ _ _ CL) as (L & HL & _). unfold link in L. injection L as _ L _ _ _ _ _.
      unfold Transport.close in CL. destruct (shut _) as [w' m']. destruct (send_all m' _) as [d5 o5] eqn:SA'. injection CL as <- <-.
      pose proof (send_all_link _ _ _ _ SA) as (L2 & HL2 & _). unfold link in L2. injection L2 as _ L2 _ _ _ _ _.
      apply send_all_closed in SA; [|exact L]. apply send_all_closed in SA'; [|reflexivity].
      rewrite handed_app, offered_app, received_app, HL, HL2. destruct SA as (-> & ->), SA' as (-> & ->). rewrite L2. cbn in L |- *. auto.
    - destruct (scheduled d); [injection E1 as <- <-; auto|]. unfold on_connection_closed in E1. destruct (present d); injection E1 as <- <-; auto. }
  destruct G as (A & B & C & D). destruct (IH _ _ _ A E2) as (A' & B' & C' & D'). rewrite handed_app, offered_app, received_app, B, C, D, B', C', D'. auto.
Qed.

(** Bytes taken, when every write takes all of them *)
Fixpoint whole (l : list output) : Prop :=
  match l with
  | [] => True
  | Offered t b :: Took x :: Took y :: l => x = [t] /\ y = b /\ whole l
  | Offered _ _ :: _ | Took _ :: _ => False
  | _ :: l => whole l
  end.
Lemma whole_app : forall a b, whole a -> whole b -> whole (a ++ b).
Proof.
  intros a. remember (List.length a) as n eqn:E. revert a E. induction n as [n IH] using lt_wf_ind. intros a E b A B. destruct a as [|x a]; [exact B|].
  destruct x; cbn [app whole] in *; try contradiction; try (apply (IH (List.length a)); subst n; cbn; auto).
  destruct a as [|[| | |x| ] a]; cbn [app whole] in *; try contradiction. destruct a as [|[| | |y| ] a]; cbn [app whole] in *; try contradiction.
  destruct A as (A1 & A2 & A3). split; auto. split; auto. apply (IH (List.length a)); subst n; cbn; auto.
Qed.
Hypothesis room : spacious takes.
Lemma write_all : forall n b, write takes n b = b.
Proof. intros n b. unfold write. destruct (room n (List.length b)) as (k & -> & K). now apply firstn_all2. Qed.
Lemma send_whole : forall t b d d' o, send t b d = (d', o) -> whole o.
Proof.
  intros t b d d' o H. unfold Transport.send in H. destruct (connected W stale d); injection H as <- <-; [|exact Logic.I]. cbn [whole].
  split; [apply write_all|]. split; [apply write_all|exact Logic.I].
Qed.
Lemma send_all_whole : forall l d d' o, send_all l d = (d', o) -> whole o.
Proof.
  induction l as [|[t b] l IH]; intros d d' o H; cbn [Transport.send_all] in H; [injection H as <- <-; exact Logic.I|].
  destruct (send t b d) as [d1 o1] eqn:E1. destruct (send_all l d1) as [d2 o2] eqn:E2. injection H as <- <-. apply whole_app; [eapply send_whole; eauto|eapply IH; eauto].
Qed.
Lemma close_whole : forall d d' o, close d = (d', o) -> whole o.
Proof. intros d d' o H. unfold Transport.close in H. destruct (shut _) as [w l]. destruct (send_all l _) as [d1 o1] eqn:E. injection H as <- <-. eapply send_all_whole; eauto. Qed.
Lemma dispatch_all_whole : forall l d d' o, dispatch_all l d = Ok (d', o) -> whole o.
Proof.
  induction l as [|x l IH]; intros d d' o H; cbn [Transport.dispatch_all] in H; [injection H as <- <-; exact Logic.I|].
  destruct (dispatch x d) as [[d1 o1]| | |] eqn:E1; try discriminate. destruct (dispatch_all l d1) as [[d2 o2]| | |] eqn:E2; try discriminate. injection H as <- <-.
  apply whole_app; [|eapply IH; eauto]. unfold Transport.dispatch in E1. destruct x; try discriminate;
    (destruct (handle _ (world d)) as [w m]; destruct (send_all m _) as [d3 o3] eqn:E; injection E1 as <- <-; cbn [whole]; eapply send_all_whole; eauto).
Qed.
Lemma reading_whole : forall fuel d d' o, on_data_ready fuel d = Ok (d', o) -> whole o.
Proof.
  induction fuel as [|fuel IH]; intros d d' o H; [discriminate|]. cbn [Transport.on_data_ready] in H.
  assert (CL : forall r, Ok (close d) = r -> r = Ok (d', o) -> whole o). { intros r <- E. injection E as E. eapply close_whole; eauto. }
  destruct (opened d); cbn [negb] in H; [|eapply CL; eauto]. destruct (bytes_requested (h4 d) =? 0); [eapply CL; eauto|].
  destruct (broken d) as [[]|]; [eapply CL; eauto|discriminate|]. destruct (inbox d) as [|y rest] eqn:IN.
  - destruct (ended d); [eapply CL; eauto|]. injection H as <- <-. exact Logic.I.
  - rewrite <- IN in *. destruct (consume (h4 d) _) as [r q m| |]; try discriminate. destruct (dispatch_all m _) as [[d1 o1]| | |] eqn:DA; try discriminate.
    destruct (on_data_ready fuel d1) as [[d2 o2]| | |] eqn:E2; try discriminate. injection H as <- <-. apply whole_app; [eapply dispatch_all_whole; eauto|eapply IH; eauto].
Qed.
Lemma steps_whole : forall l d d' o, steps d l = Ok (d', o) -> whole o.
Proof.
  induction l as [|x l IH]; intros d d' o H; cbn [Transport.steps] in H; [injection H as <- <-; exact Logic.I|].
  destruct (step d x) as [[d1 o1]| | |] eqn:E1; try discriminate. destruct (steps d1 l) as [[d2 o2]| | |] eqn:E2; try discriminate. injection H as <- <-.
  apply whole_app; [|eapply IH; eauto]. destruct x; cbn [Transport.step] in E1.
  - destruct (ended d || negb (opened d)); injection E1 as <- <-; exact Logic.I.
  - injection E1 as <- <-; exact Logic.I.
  - injection E1 as <- <-; exact Logic.I.
  - destruct (present d); [|injection E1 as <- <-; exact Logic.I]. unfold Transport.tick in E1. destruct (on_data_ready _ d) as [[d3 o3]| | |] eqn:E; try discriminate.
    destruct (work (world d3)) as [w m]. destruct (send_all m _) as [d4 o4] eqn:SA. injection E1 as <- <-. apply whole_app; [eapply reading_whole; eauto|eapply send_all_whole; eauto].
  - destruct (scheduled d); [injection E1 as <- <-; exact Logic.I|]. unfold on_connection_closed in E1. destruct (present d); injection E1 as <- <-; exact Logic.I.
Qed.
Lemma whole_received : forall o ps, whole o -> forallb wf_packet ps = true -> offered o = map (fun k => (indicator k, body k)) ps -> received o = concat (map encode ps).
Proof.
  intros o. remember (List.length o) as n eqn:E. revert o E. induction n as [n IH] using lt_wf_ind. intros o E ps A WF B. destruct o as [|x o].
  { destruct ps; [reflexivity|discriminate]. }
  destruct x; cbn [whole] in A; try contradiction;
    try (exact (IH (List.length o) (eq_ind_r (fun z => (List.length o < z)%nat) (Nat.lt_succ_diag_r _) E) o eq_refl ps A WF B)).
  destruct o as [|[| | |x| ] o]; cbn [whole] in A; try contradiction. destruct o as [|[| | |y| ] o]; cbn [whole] in A; try contradiction.
  destruct A as (A1 & A2 & A3). cbn in B. destruct ps as [|k ps]; [discriminate|]. cbn [map] in B. injection B as B1 B2 B3. cbn [forallb] in WF. apply andb_true_iff in WF. destruct WF as (WF1 & WF2).
  rewrite A2, A1. change (received (Offered t data :: Took [t] :: Took data :: o)) with (([t] ++ data) ++ received o). 
  rewrite (IH (List.length o)) with (ps := ps); auto; [|subst n; cbn; lia]. cbn [map concat]. unfold encode at 2. now rewrite B1, B2.
Qed.
Theorem host_receives : forall w l d out ps, steps (new_device w) l = Ok (d, out) -> forallb wf_packet ps = true ->
  offered out = map (fun k => (indicator k, body k)) ps -> parses (received out) ps.
Proof.
  intros w l d out ps H WF O. rewrite (whole_received out ps); auto; [|eapply steps_whole; eauto].
  clear - WF. pose proof (parses_packets ps [] [] WF parses_nil) as P. now rewrite !app_nil_r in P.
Qed.
End Dev.
