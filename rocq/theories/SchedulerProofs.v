(** Proofs about the scheduler of the controllers. *)
From Verif Require Import Prelude Scheduler SchedulerSpec.
Open Scope N_scope.

Fixpoint sorted (q : list task) : Prop :=
  match q with [] => True | t :: q => (forall x, In x q -> before t x = true) /\ sorted q end.

Lemma before_spec a b : before a b = true <-> (time a < time b)%Z \/ (time a = time b /\ id a < id b).
Proof. unfold before. rewrite orb_true_iff, andb_true_iff, Z.ltb_lt, Z.eqb_eq, N.ltb_lt. tauto. Qed.
Lemma before_trans a b c : before a b = true -> before b c = true -> before a c = true.
Proof. rewrite !before_spec. lia. Qed.
Lemma before_total a b : id a <> id b -> before a b = false -> before b a = true.
Proof.
  intros N B. apply before_spec. destruct (before a b) eqn:E; [discriminate|].
  assert (~ ((time a < time b)%Z \/ (time a = time b /\ id a < id b))) as X by (rewrite <- before_spec; congruence). lia.
Qed.

Lemma insert_in t q x : (forall y, In y q -> id y <> id t) -> In x (insert t q) <-> x = t \/ In x q.
Proof.
  induction q as [|y q IH]; cbn [insert]; intros D; [cbn; intuition|].
  destruct (before t y) eqn:B; [cbn; intuition|].
  assert (before y t = true) as B' by (apply before_total; [intros E; exact (D y (or_introl eq_refl) (eq_sym E))|exact B]). rewrite B'.
  cbn [In]. rewrite IH by (intros z I; apply D; now right). intuition.
Qed.
Lemma insert_sorted t q : (forall y, In y q -> id y <> id t) -> sorted q -> sorted (insert t q).
Proof.
  induction q as [|y q IH]; cbn [insert]; intros D S; [now split|].
  destruct (before t y) eqn:B.
  - split; [|exact S]. intros x [<-|I]; [exact B|]. apply (before_trans _ y); [exact B|]. now apply S.
  - assert (before y t = true) as B' by (apply before_total; [intros E; exact (D y (or_introl eq_refl) (eq_sym E))|exact B]).
    rewrite B'. split.
    + intros x I. apply insert_in in I; [|intros z J; apply D; now right]. destruct I as [->|I]; [exact B'|]. now apply S.
    + apply IH; [intros z J; apply D; now right|apply S].
Qed.

Lemma cancel_some i : forall q q' n, cancel i q = (q', Some n) -> NoDup (map id q) ->
  exists t, In t q /\ id t = i /\ name t = n /\ (forall x, In x q' <-> In x q /\ x <> t).
Proof.
  induction q as [|t q IH]; cbn [cancel]; intros q' n H D; [discriminate|]. inversion D as [|? ? D1 D2]; subst.
  destruct (N.eqb_spec (id t) i) as [E|E].
  - injection H as <- <-. exists t. split; [now left|]. split; [exact E|]. split; [reflexivity|].
    intros x. cbn [In]. split.
    + intros I. split; [now right|]. intros ->. apply D1. now apply in_map.
    + intros [[->|I] X]; [congruence|exact I].
  - destruct (cancel i q) as [q1 r] eqn:C. injection H as <- ->. destruct (IH _ _ eq_refl D2) as (u & I & E1 & E2 & X).
    exists u. split; [now right|]. split; [exact E1|]. split; [exact E2|].
    intros x. cbn [In]. rewrite X. split.
    + intros [->|[J K]]; [|tauto]. split; [now left|]. congruence.
    + intros [[->|J] K]; tauto.
Qed.
Lemma cancel_none i : forall q q', cancel i q = (q', None) -> q' = q /\ (forall t, In t q -> id t <> i).
Proof.
  induction q as [|t q IH]; cbn [cancel]; intros q' H; [injection H as <-; now split|].
  destruct (N.eqb_spec (id t) i) as [E|E]; [discriminate|].
  destruct (cancel i q) as [q1 r] eqn:C. injection H as <- ->. destruct (IH _ eq_refl) as [-> X].
  split; [reflexivity|]. intros u [<-|I]; auto.
Qed.
Lemma cancel_sub i : forall q q' r, cancel i q = (q', r) -> sorted q -> NoDup (map id q) ->
  sorted q' /\ NoDup (map id q') /\ (forall x, In x q' -> In x q).
Proof.
  induction q as [|t q IH]; cbn [cancel]; intros q' r H S D; [injection H as <- <-; now repeat split|].
  inversion D as [|? ? D1 D2]; subst.
  destruct (N.eqb_spec (id t) i).
  - injection H as <- <-. split; [apply S|]. split; [exact D2|]. intros x I. now right.
  - destruct (cancel i q) as [q1 r1] eqn:C. injection H as <- <-. destruct (IH _ _ eq_refl (proj2 S) D2) as (S1 & D3 & I).
    split; [split; [intros x J; apply S; auto|exact S1]|]. split.
    + cbn [map]. constructor; [|exact D3]. intros J. apply in_map_iff in J as (x & E & J). apply D1. rewrite <- E. apply in_map. auto.
    + intros x [<-|J]; [now left|right; auto].
Qed.

Lemma insert_nodup t q : (forall y, In y q -> id y <> id t) -> NoDup (map id q) -> NoDup (map id (insert t q)).
Proof.
  induction q as [|y q IH]; cbn [insert]; intros D N; [now repeat constructor|].
  destruct (before t y).
  - cbn [map]. constructor; [|exact N]. intros I. change (In (id t) (map id (y :: q))) in I. apply in_map_iff in I as (z & E & I). exact (D z I E).
  - destruct (before y t); [|exact N]. inversion N as [|? ? N1 N2]; subst. cbn [map].
    assert (D' : forall z, In z q -> id z <> id t) by (intros z I; apply D; now right).
    constructor; [|exact (IH D' N2)]. intros I. apply in_map_iff in I as (z & E & I). apply insert_in in I; [|exact D'].
    destruct I as [->|I]; [exact (D y (or_introl eq_refl) (eq_sym E))|]. apply N1. rewrite <- E. now apply in_map.
Qed.

(** * The invariant *)

(** What the events say of a task *)
Definition known (h : list event) (t : task) : Prop :=
  name t < scheduled h /\ id t = name t + 1 /\ period_of (name t) h = period t.

Record Inv (h : list event) (s : sched) : Prop := {
  i_count : count s = scheduled h;
  i_counter : counter s = if count s =? 0 then 0 else count s + 1;
  i_sorted : sorted (queue s);
  i_nodup : NoDup (map id (queue s));
  i_known : forall t, In t (queue s) -> known h t /\ due_of (name t) h = Some (time t);
  i_due : forall n d, due_of n h = Some d -> exists t, In t (queue s) /\ name t = n /\ time t = d;
  i_current : forall t, current s = Some t -> known h t /\ due_of (name t) h = None;
  i_fresh : forall n, scheduled h <= n -> due_of n h = None /\ id_of n h = None;
  i_ids : forall n, n < scheduled h -> id_of n h = Some (n + 1);
  i_tick : forall now, ticking s = Some now -> tick_time h = now;
  i_idle : ticking s = None -> current s = None }.

Lemma few_tail e h : few (e :: h) -> few h.
Proof. unfold few. destruct e; cbn [scheduled]; lia. Qed.

Lemma wrap_small n : n < 4294967296 -> wrap32 n = n.
Proof. apply N.mod_small. Qed.

Lemma inv_next_id h s : Inv h s -> scheduled h + 1 < 4294967295 ->
  next_id (S (S (length (queue s)))) (queue s) (counter s) = Some (count s + 1, count s + 2).
Proof.
  intros I F. rewrite (i_counter _ _ I), (i_count _ _ I).
  assert (E : existsb (fun t => id t =? scheduled h + 1) (queue s) = false).
  { apply not_true_iff_false. rewrite existsb_exists. intros (t & J & E). apply N.eqb_eq in E.
    destruct (i_known _ _ I t J) as [(A & B & _) _]. lia. }
  assert (X : forall f, next_id (S f) (queue s) (scheduled h + 1) = Some (scheduled h + 1, scheduled h + 2)).
  { intros f. cbn [next_id]. rewrite E. rewrite (proj2 (N.eqb_neq _ _)) by lia. cbn [orb].
    rewrite wrap_small by lia. do 2 f_equal. lia. }
  destruct (N.eqb_spec (scheduled h) 0) as [Z|Z]; [|apply X].
  rewrite Z in *. cbn [next_id N.eqb orb]. rewrite (wrap_small (0 + 1)) by lia. exact (X (length (queue s))).
Qed.

Lemma id_inj h t u : known h t -> known h u -> id t = id u -> name t = name u.
Proof. intros (_ & A & _) (_ & B & _) E. lia. Qed.

Lemma same_task h s t u : Inv h s -> In t (queue s) -> In u (queue s) -> name t = name u -> t = u.
Proof.
  intros I J K E. destruct (i_known _ _ I t J) as [(_ & A & P1) D1], (i_known _ _ I u K) as [(_ & B & P2) D2].
  destruct t as [t1 i1 p1 n1], u as [t2 i2 p2 n2]. cbn in *. subst n2. congruence.
Qed.

Lemma inv_step h s o s' e : Inv h s -> few (e :: h) -> step s o = Next s' e -> Inv (e :: h) s'.
Proof.
  intros I F S. destruct o; cbn [step] in S.
  - (* Advance *) injection S as <- <-. destruct I. now constructor.
  - (* Schedule *) destruct (negb (in_code s)); [discriminate|].
    assert (F' : scheduled h + 1 < 4294967295).
    { destruct (next_id _ _ _) as [[i c]|]; [|discriminate]. injection S as <- <-. exact F. }
    rewrite (inv_next_id _ _ I F') in S. injection S as <- <-. pose proof (i_count _ _ I) as C.
    assert (D : forall y, In y (queue s) -> id y <> count s + 1).
    { intros y J E. destruct (i_known _ _ I y J) as [(A & B & _) _]. lia. }
    constructor; cbn [queue counter clock ticking current count scheduled time] in *; rewrite ?C in *.
    + reflexivity.
    + rewrite (proj2 (N.eqb_neq _ _)) by lia. lia.
    + apply insert_sorted; [exact D|apply I].
    + apply insert_nodup; [exact D|apply I].
    + intros t J. apply insert_in in J; [|exact D]. destruct J as [->|J].
      * unfold known. cbn [name id period time scheduled period_of due_of]. rewrite N.eqb_refl. repeat split; lia.
      * destruct (i_known _ _ I t J) as [(A & B & P) X]. unfold known. cbn [scheduled period_of due_of].
        rewrite (proj2 (N.eqb_neq (scheduled h) (name t))) by lia. repeat split; try assumption; lia.
    + intros n d. cbn [due_of]. destruct (N.eqb_spec (scheduled h) n) as [<-|NE].
      * intros [= <-]. eexists. split; [apply insert_in; [exact D|left; reflexivity]|]. split; reflexivity.
      * intros X. destruct (i_due _ _ I n d X) as (t & J & E1 & E2). exists t. split; [apply insert_in; [exact D|now right]|auto].
    + intros t J. destruct (i_current _ _ I t J) as [(A & B & P) X]. unfold known. cbn [scheduled period_of due_of].
      rewrite (proj2 (N.eqb_neq (scheduled h) (name t))) by lia. repeat split; try assumption; lia.
    + intros n L. cbn [due_of id_of]. rewrite (proj2 (N.eqb_neq (scheduled h) n)) by lia. apply (i_fresh _ _ I). lia.
    + intros n L. cbn [id_of]. destruct (N.eqb_spec (scheduled h) n) as [<-|NE]; [reflexivity|]. apply (i_ids _ _ I). lia.
    + apply (i_tick _ _ I).
    + apply (i_idle _ _ I).
  - (* Cancel *) destruct (negb (in_code s)); [discriminate|].
    destruct (cancel i (queue s)) as [q r] eqn:C. injection S as <- <-.
    destruct (cancel_sub _ _ _ _ C (i_sorted _ _ I) (i_nodup _ _ I)) as (S1 & N1 & SUB).
    destruct r as [n|].
    + destruct (cancel_some _ _ _ _ C (i_nodup _ _ I)) as (u & J & E1 & E2 & X).
      constructor; cbn [queue counter clock ticking current count scheduled tick_time id_of]; try apply I; try assumption.
      * intros t K. apply X in K as [K NE]. destruct (i_known _ _ I t K) as [A D]. split; [exact A|]. cbn [due_of].
        destruct (N.eqb_spec n (name t)) as [E|_]; [|exact D]. elim NE. apply (same_task _ _ _ _ I); auto. congruence.
      * intros m d. cbn [due_of]. destruct (N.eqb_spec n m) as [<-|NE]; [discriminate|]. intros D.
        destruct (i_due _ _ I m d D) as (t & K & A & B). exists t. split; [|auto]. apply X. split; [exact K|]. intros ->. congruence.
      * intros t K. destruct (i_current _ _ I t K) as [A D]. split; [exact A|]. cbn [due_of]. now destruct (n =? name t).
      * intros m L. destruct (i_fresh _ _ I m L) as [A B]. split; [|exact B]. cbn [due_of]. now destruct (n =? m).
    + apply cancel_none in C as [-> X]. destruct I. now constructor.
  - (* Tick *) destruct (ticking s) eqn:T; [discriminate|]. injection S as <- <-. destruct I.
    constructor; cbn [queue counter clock ticking current count scheduled due_of id_of tick_time period_of] in *; try assumption; try discriminate.
    intros now [= <-]. reflexivity.
  - (* Turn *) destruct (ticking s) as [now|] eqn:T; [|discriminate]. destruct (current s) as [?|] eqn:CU; [discriminate|].
    destruct (queue s) as [|t q] eqn:Q.
    + injection S as <- <-. destruct I. rewrite Q, CU in *.
      constructor; cbn [queue counter clock ticking current count scheduled due_of id_of tick_time period_of] in *; try assumption; try discriminate; auto.
    + destruct (now <? time t)%Z eqn:B.
      * injection S as <- <-. destruct I. rewrite Q, CU in *.
        constructor; cbn [queue counter clock ticking current count scheduled due_of id_of tick_time period_of] in *; try assumption; try discriminate; auto.
      * injection S as <- <-. pose proof I as I'. destruct I. rewrite Q in *.
        assert (NT : forall x, In x q -> name x <> name t).
        { intros x J E. cbn [map] in i_nodup0. inversion i_nodup0 as [|? ? A _]. apply A.
          assert (x = t) as <- by (apply (same_task h s); [exact I'|rewrite Q; now right|rewrite Q; now left|exact E]). now apply in_map. }
        constructor; cbn [queue counter clock ticking current count scheduled id_of tick_time] in *; try assumption; try discriminate.
        -- apply i_sorted0.
        -- cbn [map] in i_nodup0. now inversion i_nodup0.
        -- intros x J. destruct (i_known0 x (or_intror J)) as [A D]. split; [exact A|]. cbn [due_of].
           rewrite (proj2 (N.eqb_neq (name t) (name x))); [exact D|]. intros E. exact (NT x J (eq_sym E)).
        -- intros n d. cbn [due_of]. destruct (N.eqb_spec (name t) n) as [<-|NE]; [discriminate|]. intros D.
           destruct (i_due0 n d D) as (x & [<-|J] & A & C); [congruence|]. eauto.
        -- intros x [= <-]. destruct (i_known0 t (or_introl eq_refl)) as [A _]. split; [exact A|]. cbn [due_of]. now rewrite N.eqb_refl.
        -- intros n L. destruct (i_fresh0 n L) as [A C]. split; [|exact C]. cbn [due_of]. now destruct (name t =? n).
        -- intros x [= <-]. now apply i_tick0.
  - (* Return *) destruct (ticking s) as [now|] eqn:T; [|discriminate]. destruct (current s) as [t|] eqn:CU; [|discriminate].
    injection S as <- <-. destruct (i_current _ _ I t CU) as [K DN]. pose proof (i_tick _ _ I now T) as TT.
    assert (NQ : forall x, In x (queue s) -> name x <> name t).
    { intros x J E. destruct (i_known _ _ I x J) as [_ D]. congruence. }
    destruct (period t) as [p|] eqn:P.
    + set (u := Task (now + p) (id t) (Some p) (name t)).
      assert (D : forall y, In y (queue s) -> id y <> id u).
      { intros y J E. apply (NQ y J). apply (id_inj h); [apply (i_known _ _ I y J)|exact K|exact E]. }
      destruct K as (K1 & K2 & K3). rewrite P in K3.
      constructor; cbn [queue counter clock ticking current count scheduled id_of tick_time] in *; try apply I; try discriminate.
      * apply insert_sorted; [exact D|apply I].
      * apply insert_nodup; [exact D|apply I].
      * intros x J. apply insert_in in J; [|exact D]. destruct J as [->|J].
        -- unfold known, u. cbn [name id period time due_of period_of scheduled]. rewrite N.eqb_refl, K3, TT. now repeat split.
        -- destruct (i_known _ _ I x J) as [A X]. split; [exact A|]. cbn [due_of].
           rewrite (proj2 (N.eqb_neq (name t) (name x))); [exact X|]. intros E. exact (NQ x J (eq_sym E)).
      * intros n d. cbn [due_of]. destruct (N.eqb_spec (name t) n) as [<-|NE].
        -- rewrite K3, TT. intros [= <-]. exists u. split; [apply insert_in; [exact D|now left]|]. now split.
        -- intros X. destruct (i_due _ _ I n d X) as (x & J & A & B). exists x. split; [apply insert_in; [exact D|now right]|auto].
      * intros n L. destruct (i_fresh _ _ I n L) as [A B]. split; [|exact B]. cbn [due_of].
        destruct (N.eqb_spec (name t) n) as [<-|NE]; [|exact A]. lia.
      * intros x [= <-]. exact TT.
    + destruct K as (K1 & K2 & K3). rewrite P in K3.
      constructor; cbn [queue counter clock ticking current count scheduled id_of tick_time] in *; try apply I; try discriminate.
      * intros x J. destruct (i_known _ _ I x J) as [A X]. split; [exact A|]. cbn [due_of].
        rewrite (proj2 (N.eqb_neq (name t) (name x))); [exact X|]. intros E. exact (NQ x J (eq_sym E)).
      * intros n d. cbn [due_of]. destruct (N.eqb_spec (name t) n) as [<-|NE]; [rewrite K3; discriminate|]. apply (i_due _ _ I).
      * intros n L. destruct (i_fresh _ _ I n L) as [A B]. split; [|exact B]. cbn [due_of].
        destruct (N.eqb_spec (name t) n) as [<-|NE]; [now rewrite K3|exact A].
      * intros x [= <-]. exact TT.
Qed.

Lemma inv_init now : Inv [] (init now).
Proof. constructor; cbn; try (intros; contradiction || discriminate || auto; fail); try lia; try constructor; auto. Qed.

Lemma inv_history h s : history h s -> few h -> Inv h s.
Proof.
  induction 1 as [now|h s o s' e H IH S]; intros F; [apply inv_init|].
  apply (inv_step h s o); auto. apply IH. exact (few_tail _ _ F).
Qed.

(** * What the invariant gives *)

Lemma history_inv e h s : history (e :: h) s -> exists s0 o, history h s0 /\ step s0 o = Next s e.
Proof. intros H. inversion H; subst. eauto. Qed.

Lemma history_tail h2 : forall h1 s, history (h2 ++ h1) s -> exists s0, history h1 s0.
Proof.
  induction h2 as [|e h2 IH]; intros h1 s H; [eauto|]. apply history_inv in H as (s0 & o & H & _). eauto.
Qed.

Lemma few_app h2 h1 : few (h2 ++ h1) -> few h1.
Proof. induction h2 as [|e h2 IH]; cbn [app]; intros F; [exact F|]. apply IH. exact (few_tail _ _ F). Qed.

Lemma ticking_is h s : history h s -> ticking s = in_tick h.
Proof.
  induction 1 as [now|h s o s' e H IH S]; [reflexivity|].
  destruct o; cbn [step] in S.
  - injection S as <- <-. exact IH.
  - destruct (negb (in_code s)); [discriminate|]. destruct (next_id _ _ _) as [[? ?]|]; [|discriminate]. injection S as <- <-. exact IH.
  - destruct (negb (in_code s)); [discriminate|]. destruct (cancel _ _) as [? r]. injection S as <- <-. exact IH.
  - destruct (ticking s); [discriminate|]. injection S as <- <-. reflexivity.
  - destruct (ticking s) as [now|] eqn:T; [|discriminate]. destruct (current s); [discriminate|].
    destruct (queue s); [injection S as <- <-; reflexivity|]. destruct (_ <? _)%Z; injection S as <- <-; [reflexivity|]. exact IH.
  - destruct (ticking s) as [now|] eqn:T; [|discriminate]. destruct (current s); [|discriminate]. injection S as <- <-. exact IH.
Qed.

Lemma in_tick_time h now : in_tick h = Some now -> tick_time h = now.
Proof. induction h as [|[] h IH]; cbn; try discriminate; auto. now intros [= <-]. Qed.

(** The only operation which runs a task *)
Lemma run_step s o s' n now : step s o = Next s' (EvRun n now) ->
  ticking s = Some now /\ current s = None /\
  exists t q, queue s = t :: q /\ (time t <= now)%Z /\ name t = n /\ queue s' = q /\ current s' = Some t.
Proof.
  destruct o; cbn [step]; try discriminate.
  - destruct (negb (in_code s)); [discriminate|]. now destruct (next_id _ _ _) as [[? ?]|].
  - destruct (negb (in_code s)); [discriminate|]. now destruct (cancel _ _).
  - now destruct (ticking s).
  - destruct (ticking s) as [x|]; [|discriminate]. destruct (current s); [discriminate|].
    destruct (queue s) as [|t q]; [discriminate|]. destruct (x <? time t)%Z eqn:B; [discriminate|].
    intros [= <- <- <-]. split; [reflexivity|]. split; [reflexivity|]. exists t, q. cbn. apply Z.ltb_ge in B. auto.
  - destruct (ticking s); [|discriminate]. now destruct (current s).
Qed.

Lemma end_step s o s' now : step s o = Next s' (EvTickEnd now) ->
  ticking s = Some now /\ current s = None /\ (queue s = [] \/ exists t q, queue s = t :: q /\ (now < time t)%Z).
Proof.
  destruct o; cbn [step]; try discriminate.
  - destruct (negb (in_code s)); [discriminate|]. now destruct (next_id _ _ _) as [[? ?]|].
  - destruct (negb (in_code s)); [discriminate|]. now destruct (cancel _ _).
  - now destruct (ticking s).
  - destruct (ticking s) as [x|]; [|discriminate]. destruct (current s); [discriminate|].
    destruct (queue s) as [|t q]; [intros [= <- <-]; auto|]. destruct (x <? time t)%Z eqn:B; [|discriminate].
    intros [= <- <-]. split; [reflexivity|]. split; [reflexivity|]. right. exists t, q. apply Z.ltb_lt in B. auto.
  - destruct (ticking s); [|discriminate]. now destruct (current s).
Qed.

Lemma cancel_step s o s' i r : step s o = Next s' (EvCancel i r) ->
  o = Cancel i /\ cancel i (queue s) = (queue s', r) /\ current s' = current s.
Proof.
  destruct o; cbn [step]; try discriminate.
  - destruct (negb (in_code s)); [discriminate|]. now destruct (next_id _ _ _) as [[? ?]|].
  - destruct (negb (in_code s)); [discriminate|]. destruct (cancel _ _) as [q x] eqn:C. intros [= <- -> ->]. now rewrite C.
  - now destruct (ticking s).
  - destruct (ticking s) as [x|]; [|discriminate]. destruct (current s); [discriminate|].
    destruct (queue s) as [|t q]; [discriminate|]. now destruct (x <? time t)%Z.
  - destruct (ticking s); [|discriminate]. now destruct (current s).
Qed.

Lemma return_step s o s' n : step s o = Next s' (EvReturn n) ->
  exists t, current s = Some t /\ name t = n /\ current s' = None.
Proof.
  destruct o; cbn [step]; try discriminate.
  - destruct (negb (in_code s)); [discriminate|]. now destruct (next_id _ _ _) as [[? ?]|].
  - destruct (negb (in_code s)); [discriminate|]. now destruct (cancel _ _).
  - now destruct (ticking s).
  - destruct (ticking s) as [x|]; [|discriminate]. destruct (current s); [discriminate|].
    destruct (queue s) as [|t q]; [discriminate|]. now destruct (x <? time t)%Z.
  - destruct (ticking s); [|discriminate]. destruct (current s) as [t|]; [|discriminate]. intros [= <- <-]. eauto.
Qed.

Lemma schedule_step s o s' n i d p : step s o = Next s' (EvSchedule n i d p) -> n = count s /\ current s' = current s.
Proof.
  destruct o; cbn [step]; try discriminate.
  - destruct (negb (in_code s)); [discriminate|]. destruct (next_id _ _ _) as [[? ?]|]; [|discriminate]. intros [= <- <- _ _ _]. auto.
  - destruct (negb (in_code s)); [discriminate|]. now destruct (cancel _ _).
  - now destruct (ticking s).
  - destruct (ticking s) as [x|]; [|discriminate]. destruct (current s); [discriminate|].
    destruct (queue s) as [|t q]; [discriminate|]. now destruct (x <? time t)%Z.
  - destruct (ticking s); [|discriminate]. now destruct (current s).
Qed.

Lemma run_due h s n now : history (EvRun n now :: h) s -> few h ->
  in_tick h = Some now /\
  exists d, due_of n h = Some d /\ (d <= now)%Z /\
    forall m d', due_of m h = Some d' -> (d < d')%Z \/ (d = d' /\ n <= m).
Proof.
  intros H F. apply history_inv in H as (s0 & o & H & S). pose proof (inv_history _ _ H F) as I.
  destruct (run_step _ _ _ _ _ S) as (T & C & t & q & Q & L & <- & _).
  split; [now rewrite <- (ticking_is _ _ H)|].
  destruct (i_known _ _ I t) as [(A & B & P) D]; [rewrite Q; now left|].
  exists (time t). split; [exact D|]. split; [exact L|].
  intros m d' D'. destruct (i_due _ _ I m d' D') as (u & J & <- & <-). rewrite Q in J. destruct J as [<-|J]; [right; lia|].
  pose proof (i_sorted _ _ I) as SO. rewrite Q in SO. pose proof (proj1 SO u J) as BE. apply before_spec in BE.
  destruct (i_known _ _ I u) as [(A' & B' & P') _]; [rewrite Q; now right|]. lia.
Qed.

Lemma tick_end h s now : history (EvTickEnd now :: h) s -> few h ->
  in_tick h = Some now /\ forall m d, due_of m h = Some d -> (now < d)%Z.
Proof.
  intros H F. apply history_inv in H as (s0 & o & H & S). pose proof (inv_history _ _ H F) as I.
  destruct (end_step _ _ _ _ S) as (T & C & Q). split; [now rewrite <- (ticking_is _ _ H)|].
  intros m d D. destruct (i_due _ _ I m d D) as (u & J & <- & <-). destruct Q as [Q|(t & q & Q & L)]; rewrite Q in J; [easy|].
  destruct J as [<-|J]; [exact L|]. pose proof (i_sorted _ _ I) as SO. rewrite Q in SO. pose proof (proj1 SO u J) as BE. apply before_spec in BE. lia.
Qed.

Lemma still_due n i d p h1 : forall h2 s, history (h2 ++ EvSchedule n i d p :: h1) s -> few (h2 ++ EvSchedule n i d p :: h1) ->
  ~ runs n h2 -> ~ cancelled n h2 ->
  due_of n (h2 ++ EvSchedule n i d p :: h1) = Some d /\ n < scheduled (h2 ++ EvSchedule n i d p :: h1).
Proof.
  induction h2 as [|e h2 IH]; cbn [app]; intros s H F R C.
  - cbn [due_of scheduled]. rewrite N.eqb_refl. split; [reflexivity|]. apply history_inv in H as (s0 & o & H & S).
    apply schedule_step in S as [-> _]. rewrite (i_count _ _ (inv_history _ _ H (few_tail _ _ F))). lia.
  - apply history_inv in H as (s0 & o & H & S). pose proof (few_tail _ _ F) as F'.
    destruct (IH _ H F') as [D L].
    { intros (x & X). apply R. exists x. now right. }
    { intros (x & X). apply C. exists x. now right. }
    pose proof (inv_history _ _ H F') as I.
    destruct e as [| m i' d' p' | i' [m|] | | m now | m |]; cbn [due_of scheduled]; try (split; [exact D|lia]).
    + apply schedule_step in S as [-> _]. rewrite (i_count _ _ I). rewrite (proj2 (N.eqb_neq _ _)) by lia. split; [exact D|lia].
    + destruct (N.eqb_spec m n) as [->|]; [|split; [exact D|lia]]. elim C. exists i'. now left.
    + destruct (N.eqb_spec m n) as [->|]; [|split; [exact D|lia]]. elim R. exists now. now left.
    + destruct (N.eqb_spec m n) as [->|]; [|split; [exact D|lia]]. apply return_step in S as (t & T & <- & _).
      destruct (i_current _ _ I t T) as [_ X]. congruence.
Qed.

Lemma run_by_tick_end h2 h1 s n i d p now :
  history (EvTickEnd now :: h2 ++ EvSchedule n i d p :: h1) s -> few (h2 ++ EvSchedule n i d p :: h1) ->
  (d <= now)%Z -> ~ cancelled n h2 -> ~ ~ runs n h2.
Proof.
  intros H F L C R. destruct (tick_end _ _ _ H F) as [_ T]. apply history_inv in H as (s0 & o & H & _).
  destruct (still_due _ _ _ _ _ _ _ H F R C) as [D _]. specialize (T _ _ D). lia.
Qed.

Lemma runs_dec n h : runs n h \/ ~ runs n h.
Proof.
  induction h as [|e h [(x & I)|IH]]; [right; intros (x & [])|left; exists x; now right|].
  assert ((exists x, e = EvRun n x) \/ ~ exists x, e = EvRun n x) as [(x & ->)|NE].
  { destruct e as [| | | |m now| |]; try (right; intros (? & ?); discriminate).
    destruct (N.eq_dec m n) as [->|]; [left; eauto|right; intros (? & [= ? ?]); auto]. }
  - left. exists x. now left.
  - right. intros (x & [E|I]); [apply NE; eauto|]. apply IH. now exists x.
Qed.

Lemma known_of_run n now h2 : forall h1 s, history (h2 ++ EvRun n now :: h1) s -> few (h2 ++ EvRun n now :: h1) ->
  n < scheduled (h2 ++ EvRun n now :: h1).
Proof.
  induction h2 as [|e h2 IH]; cbn [app]; intros h1 s H F.
  - apply history_inv in H as (s0 & o & H & S). pose proof (inv_history _ _ H (few_tail _ _ F)) as I.
    destruct (run_step _ _ _ _ _ S) as (_ & _ & t & q & Q & _ & <- & _).
    destruct (i_known _ _ I t) as [(A & _) _]; [rewrite Q; now left|]. exact A.
  - apply history_inv in H as (s0 & o & H & S). specialize (IH _ _ H (few_tail _ _ F)). destruct e; cbn [scheduled]; lia.
Qed.

Lemma period_known h s n m i d p : history (EvSchedule m i d p :: h) s -> few (EvSchedule m i d p :: h) -> n < scheduled h -> m <> n.
Proof.
  intros H F L. apply history_inv in H as (s0 & o & H & S). apply schedule_step in S as [-> _].
  rewrite (i_count _ _ (inv_history _ _ H (few_tail _ _ F))). lia.
Qed.

Lemma one_shot_done n : forall h2 now h1 s, history (h2 ++ EvRun n now :: h1) s -> few (h2 ++ EvRun n now :: h1) ->
  period_of n (h2 ++ EvRun n now :: h1) = None -> due_of n (h2 ++ EvRun n now :: h1) = None.
Proof.
  induction h2 as [|e h2 IH]; cbn [app]; intros now h1 s H F P; [cbn [due_of]; now rewrite N.eqb_refl|].
  pose proof H as H'. apply history_inv in H as (s0 & o & H & S). pose proof (few_tail _ _ F) as F'.
  pose proof (known_of_run _ _ _ _ _ H F') as K.
  destruct e as [| m i' d' p' | i' [m|] | | m t | m |]; cbn [due_of period_of] in *; try (eapply IH; eassumption).
  - pose proof (period_known _ _ _ _ _ _ _ H' F K) as NE. rewrite (proj2 (N.eqb_neq _ _) NE) in *. eapply IH; eassumption.
  - destruct (m =? n); [reflexivity|]. eapply IH; eassumption.
  - destruct (m =? n); [reflexivity|]. eapply IH; eassumption.
  - destruct (N.eqb_spec m n) as [->|]; [now rewrite P|]. eapply IH; eassumption.
Qed.

Lemma one_shot_once n h2 now now' h1 s :
  history (EvRun n now' :: h2 ++ EvRun n now :: h1) s -> few (h2 ++ EvRun n now :: h1) ->
  period_of n (h2 ++ EvRun n now :: h1) <> None.
Proof.
  intros H F P. destruct (run_due _ _ _ _ H F) as (_ & d & D & _). apply history_inv in H as (s0 & o & H & _).
  rewrite (one_shot_done _ _ _ _ _ H F P) in D. discriminate.
Qed.

Lemma periodic_later n q : (0 < q)%Z -> forall h2 now h1 s, history (h2 ++ EvRun n now :: h1) s -> few (h2 ++ EvRun n now :: h1) ->
  no_tick h2 -> period_of n (h2 ++ EvRun n now :: h1) = Some q ->
  due_of n (h2 ++ EvRun n now :: h1) = None \/
  exists d, due_of n (h2 ++ EvRun n now :: h1) = Some d /\ (tick_time (h2 ++ EvRun n now :: h1) < d)%Z.
Proof.
  intros Q. induction h2 as [|e h2 IH]; cbn [app]; intros now h1 s H F T P; [left; cbn [due_of]; now rewrite N.eqb_refl|].
  pose proof H as H'. apply history_inv in H as (s0 & o & H & S). pose proof (few_tail _ _ F) as F'.
  pose proof (known_of_run _ _ _ _ _ H F') as K. assert (T' : no_tick h2) by (intros x X; apply (T x); now right).
  destruct e as [| m i' d' p' | i' [m|] | t | m t | m |]; cbn [due_of period_of tick_time] in *; try (eapply IH; eassumption).
  - pose proof (period_known _ _ _ _ _ _ _ H' F K) as NE. rewrite (proj2 (N.eqb_neq _ _) NE) in *. eapply IH; eassumption.
  - destruct (m =? n); [now left|]. eapply IH; eassumption.
  - elim (T t). now left.
  - destruct (m =? n); [now left|]. eapply IH; eassumption.
  - destruct (N.eqb_spec m n) as [->|]; [|eapply IH; eassumption]. rewrite P. right. eexists. split; [reflexivity|]. lia.
Qed.

Lemma periodic_once_per_tick n q h2 now now' h1 s :
  history (EvRun n now' :: h2 ++ EvRun n now :: h1) s -> few (h2 ++ EvRun n now :: h1) ->
  period_of n (h2 ++ EvRun n now :: h1) = Some q -> (0 < q)%Z -> ~ no_tick h2.
Proof.
  intros H F P Q T. destruct (run_due _ _ _ _ H F) as (X & d & D & L & _). apply history_inv in H as (s0 & o & H & _).
  apply in_tick_time in X.
  destruct (periodic_later n q Q _ _ _ _ H F T P) as [Y|(e & Y & Z)]; [congruence|]. rewrite D in Y. injection Y as <-. lia.
Qed.

Lemma cancelled_is_waiting h s i n : history (EvCancel i (Some n) :: h) s -> few h ->
  id_of n h = Some i /\ exists d, due_of n h = Some d.
Proof.
  intros H F. apply history_inv in H as (s0 & o & H & S). pose proof (inv_history _ _ H F) as I.
  apply cancel_step in S as (_ & C & _). destruct (cancel_some _ _ _ _ C (i_nodup _ _ I)) as (t & J & E & <- & _).
  destruct (i_known _ _ I t J) as [(A & B & _) D]. split; [|eauto]. rewrite (i_ids _ _ I _ A). congruence.
Qed.

Lemma cancel_waiting h s n i d : history h s -> few h -> id_of n h = Some i -> due_of n h = Some d ->
  forall s' e, step s (Cancel i) = Next s' e -> e = EvCancel i (Some n).
Proof.
  intros H F E D s' e S. pose proof (inv_history _ _ H F) as I. cbn [step] in S. destruct (negb (in_code s)); [discriminate|].
  destruct (cancel i (queue s)) as [q r] eqn:C. injection S as <- <-. f_equal.
  destruct (i_due _ _ I n d D) as (t & J & <- & <-). destruct (i_known _ _ I t J) as [(A & B & _) _].
  rewrite (i_ids _ _ I _ A) in E. injection E as <-.
  destruct r as [m|]; [|apply cancel_none in C as [_ X]; elim (X t J); exact B].
  f_equal. destruct (cancel_some _ _ _ _ C (i_nodup _ _ I)) as (u & K & E' & <- & _).
  destruct (i_known _ _ I u K) as [(_ & B' & _) _]. lia.
Qed.

Lemma cancelled_stays i n h1 : forall h2 s, history (h2 ++ EvCancel i (Some n) :: h1) s -> few (h2 ++ EvCancel i (Some n) :: h1) ->
  due_of n (h2 ++ EvCancel i (Some n) :: h1) = None /\ n < scheduled (h2 ++ EvCancel i (Some n) :: h1) /\
  (forall t, current s = Some t -> name t <> n).
Proof.
  induction h2 as [|e h2 IH]; cbn [app]; intros s H F.
  - destruct (cancelled_is_waiting _ _ _ _ H (few_tail _ _ F)) as (E & d & D).
    apply history_inv in H as (s0 & o & H & S). pose proof (inv_history _ _ H (few_tail _ _ F)) as I.
    apply cancel_step in S as (_ & C & CU). cbn [due_of scheduled]. rewrite N.eqb_refl. split; [reflexivity|]. split.
    + destruct (N.lt_ge_cases n (scheduled h1)) as [L|L]; [exact L|]. destruct (i_fresh _ _ I n L). congruence.
    + intros t T X. rewrite CU in T. destruct (i_current _ _ I t T) as [_ Y]. congruence.
  - pose proof H as H'. apply history_inv in H as (s0 & o & H & S). pose proof (few_tail _ _ F) as F'.
    destruct (IH _ H F') as (D & K & N). pose proof (inv_history _ _ H F') as I.
    destruct e as [| m i' d' p' | i' m | | m t | m |]; cbn [due_of scheduled].
    + split; [exact D|]. split; [exact K|]. destruct o; cbn [step] in S; try discriminate.
      * injection S as <- <-. exact N.
      * destruct (negb (in_code s0)); [discriminate|]. now destruct (next_id _ _ _) as [[? ?]|].
      * destruct (negb (in_code s0)); [discriminate|]. now destruct (cancel _ _).
      * now destruct (ticking s0).
      * destruct (ticking s0) as [x|]; [|discriminate]. destruct (current s0); [discriminate|].
        destruct (queue s0) as [|u q]; [discriminate|]. now destruct (x <? time u)%Z.
      * destruct (ticking s0); [|discriminate]. now destruct (current s0).
    + pose proof (period_known _ _ _ _ _ _ _ H' F K) as NE. rewrite (proj2 (N.eqb_neq _ _) NE). split; [exact D|]. split; [lia|].
      apply schedule_step in S as [_ ->]. exact N.
    + split; [destruct m as [m|]; [now destruct (m =? n)|exact D]|]. split; [exact K|]. apply cancel_step in S as (_ & _ & ->). exact N.
    + split; [exact D|]. split; [exact K|]. destruct (current s) as [t|] eqn:C; [|discriminate]. exfalso.
      destruct o; cbn [step] in S; try discriminate.
      * destruct (negb (in_code s0)); [discriminate|]. now destruct (next_id _ _ _) as [[? ?]|].
      * destruct (negb (in_code s0)); [discriminate|]. now destruct (cancel _ _).
      * destruct (ticking s0); [discriminate|]. injection S as <- <-. discriminate C.
      * destruct (ticking s0) as [x|]; [|discriminate]. destruct (current s0); [discriminate|].
        destruct (queue s0) as [|u q]; [discriminate|]. now destruct (x <? time u)%Z.
      * destruct (ticking s0); [|discriminate]. now destruct (current s0).
    + destruct (run_due _ _ _ _ H' F') as (_ & d & D' & _).
      split; [now destruct (m =? n)|]. split; [exact K|]. destruct (run_step _ _ _ _ _ S) as (_ & _ & u & q & _ & _ & <- & _ & ->).
      intros x [= <-] E. congruence.
    + apply return_step in S as (u & U & <- & ->). rewrite (proj2 (N.eqb_neq _ _) (N _ U)). split; [exact D|]. split; [exact K|]. discriminate.
    + split; [exact D|]. split; [exact K|]. intros u U. apply N. destruct (end_step _ _ _ _ S) as (T & C & _).
      pose proof (inv_step _ _ _ _ _ I F S) as I'. pose proof (ticking_is _ _ H') as TT. cbn [in_tick] in TT. rewrite (i_idle _ _ I' TT) in U. discriminate.
Qed.

Lemma cancelled_never_runs i n now h2 h1 s :
  few (h2 ++ EvCancel i (Some n) :: h1) -> ~ history (EvRun n now :: h2 ++ EvCancel i (Some n) :: h1) s.
Proof.
  intros F H. destruct (run_due _ _ _ _ H F) as (_ & d & D & _). apply history_inv in H as (s0 & o & H & _).
  destruct (cancelled_stays _ _ _ _ _ H F) as [X _]. congruence.
Qed.

Lemma ids_unique h s n m i : history h s -> few h -> id_of n h = Some i -> id_of m h = Some i -> n = m.
Proof.
  intros H F A B. pose proof (inv_history _ _ H F) as I.
  assert (forall k, id_of k h = Some i -> i = k + 1) as X.
  { intros k K. destruct (N.lt_ge_cases k (scheduled h)) as [L|L].
    - rewrite (i_ids _ _ I k L) in K. congruence.
    - destruct (i_fresh _ _ I k L). congruence. }
  pose proof (X n A). pose proof (X m B). lia.
Qed.

(** The events record the calls *)
Lemma schedule_event s delay p s' e : step s (Schedule delay p) = Next s' e ->
  exists i, e = EvSchedule (count s) i (clock s + delay) p /\ i <> 0.
Proof.
  cbn [step]. destruct (negb (in_code s)); [discriminate|].
  destruct (next_id _ _ _) as [[i c]|] eqn:E; [|discriminate]. intros [= <- <-]. exists i. split; [reflexivity|].
  remember (S (S (length (queue s)))) as f eqn:X. clear X. revert E. generalize (counter s). induction f as [|f IH]; intros k; [discriminate|].
  cbn [next_id]. destruct ((k =? 0) || _) eqn:B; [apply IH|]. intros [= <- <-]. apply orb_false_iff in B as [B _]. now apply N.eqb_neq.
Qed.

(** * Scheduling never fails *)
Definition candidates (f : nat) (c : N) : list N := map (fun k => wrap32 (c + N.of_nat k)) (seq 0 f).

Lemma candidates_nodup f c : N.of_nat f <= 4294967296 -> NoDup (candidates f c).
Proof.
  intros L. unfold candidates. assert (G : forall k, In k (seq 0 f) -> N.of_nat k < 4294967296).
  { intros k I. apply in_seq in I. lia. }
  revert G. generalize (seq_NoDup f 0). induction 1 as [|k l N D IH]; intros G; [constructor|]. cbn [map]. constructor.
  - intros I. apply in_map_iff in I as (j & E & J). apply N. replace k with j; [exact J|].
    pose proof (G k (or_introl eq_refl)). pose proof (G j (or_intror J)). unfold wrap32 in E.
    assert (N.of_nat j = N.of_nat k); [|lia].
    pose proof (N.div_mod' (c + N.of_nat j) 4294967296). pose proof (N.div_mod' (c + N.of_nat k) 4294967296).
    set (a := (c + N.of_nat j) / 4294967296) in *. set (b := (c + N.of_nat k) / 4294967296) in *.
    assert (a = b \/ a < b \/ b < a) as [|[|]] by lia; nia.
  - apply IH. intros j J. apply G. now right.
Qed.

Lemma next_id_none q : forall f c, c < 4294967296 -> next_id f q c = None -> forall x, In x (candidates f c) -> In x (0 :: map id q).
Proof.
  induction f as [|f IH]; intros c C E x I; [easy|]. cbn [next_id] in E.
  destruct ((c =? 0) || existsb (fun t => id t =? c) q) eqn:B; [|discriminate].
  unfold candidates in I. cbn [seq map] in I. destruct I as [<-|I].
  - unfold wrap32. change (N.of_nat 0) with 0. rewrite N.add_0_r, N.mod_small by exact C. apply orb_true_iff in B as [B|B].
    + left. symmetry. now apply N.eqb_eq.
    + right. apply existsb_exists in B as (t & J & E'). apply N.eqb_eq in E'. rewrite <- E'. now apply in_map.
  - apply (IH (wrap32 (c + 1))); [apply N.mod_lt; lia|exact E|].
    rewrite <- seq_shift, map_map in I. apply in_map_iff in I as (k & E' & J). apply in_map_iff. exists k. split; [|exact J].
    rewrite <- E'. unfold wrap32. rewrite N.add_mod_idemp_l by lia. f_equal. lia.
Qed.

Lemma next_id_some q c : c < 4294967296 -> N.of_nat (length q) + 2 <= 4294967296 -> next_id (S (S (length q))) q c <> None.
Proof.
  intros C L E. assert (X : (length (candidates (S (S (length q))) c) <= length (0%N :: map id q))%nat).
  { apply NoDup_incl_length; [apply candidates_nodup; lia|]. intros x I. exact (next_id_none _ _ _ C E x I). }
  unfold candidates in X. rewrite map_length, seq_length in X. cbn [length] in X. rewrite map_length in X. lia.
Qed.

Lemma counter_range h s : history h s -> counter s < 4294967296.
Proof.
  assert (G : forall f q k i c, next_id f q k = Some (i, c) -> c < 4294967296).
  { induction f as [|f IH]; intros q k i c; [discriminate|]. cbn [next_id]. destruct (_ || _); [apply IH|].
    intros [= <- <-]. apply N.mod_lt. lia. }
  induction 1 as [now|h s o s' e H IH S]; [cbn; lia|]. destruct o; cbn [step] in S.
  - injection S as <- <-. exact IH.
  - destruct (negb (in_code s)); [discriminate|]. destruct (next_id _ _ _) as [[i c]|] eqn:E; [|discriminate]. injection S as <- <-.
    exact (G _ _ _ _ _ E).
  - destruct (negb (in_code s)); [discriminate|]. destruct (cancel _ _) as [? r]. injection S as <- <-. exact IH.
  - destruct (ticking s); [discriminate|]. injection S as <- <-. exact IH.
  - destruct (ticking s) as [now|]; [|discriminate]. destruct (current s); [discriminate|].
    destruct (queue s); [injection S as <- <-; exact IH|]. destruct (_ <? _)%Z; injection S as <- <-; exact IH.
  - destruct (ticking s) as [now|]; [|discriminate]. destruct (current s); [|discriminate]. injection S as <- <-. exact IH.
Qed.

Lemma never_stuck h s o : history h s -> N.of_nat (length (queue s)) + 2 <= 4294967296 -> step s o <> Stuck.
Proof.
  intros H L. destruct o; cbn [step]; try discriminate.
  - destruct (negb (in_code s)); [discriminate|]. destruct (next_id _ _ _) as [[i c]|] eqn:E; [discriminate|].
    elim (next_id_some _ _ (counter_range _ _ H) L E).
  - destruct (negb (in_code s)); [discriminate|]. now destruct (cancel _ _).
  - now destruct (ticking s).
  - destruct (ticking s) as [x|]; [|discriminate]. destruct (current s); [discriminate|].
    destruct (queue s) as [|u q]; [discriminate|]. now destruct (x <? time u)%Z.
  - destruct (ticking s); [|discriminate]. now destruct (current s).
Qed.
