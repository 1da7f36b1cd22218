(** The events of the links, counted over histories. *)
From Coq Require Import Permutation.
From Verif Require Import Prelude Table Sco Bredr BredrBase BredrInv BredrConn BredrSpec BredrRefine.
Open Scope N_scope.

Lemma total_ext : forall (T : Type) (f g : T -> Z) l, (forall x, In x l -> f x = g x) -> total f l = total g l.
Proof.
  intros T f g l. induction l as [|x l IH]; intros H; auto. rewrite !total_cons, (H x) by now left. rewrite IH; auto.
  intros y I. apply H. now right.
Qed.
Lemma total_minus : forall (T : Type) (f g h : T -> Z) l, (forall x, f x = g x - h x)%Z -> (total f l = total g l - total h l)%Z.
Proof. intros T f g h l H. induction l as [|x l IH]; [reflexivity|]. rewrite !total_cons, H, IH. lia. Qed.

Definition opposite (f : N -> Z) : N -> Z := fun h => (- f h)%Z.
Lemma told_minus : forall cc dc out, (told cc (opposite dc) out = told cc none out - told never dc out)%Z.
Proof.
  intros. unfold told. apply total_minus. intros [| [] | | |]; cbn; unfold none, never, opposite; try lia.
  all: first [destruct t; lia|destruct (st =? SUCCESS); lia].
Qed.
Lemma to_tell_minus : forall cc dc s, (to_tell cc (opposite dc) s = to_tell cc none s - to_tell never dc s)%Z.
Proof.
  intros. unfold to_tell. apply total_minus. intros [? ? []]; cbn; try (unfold never, none; lia).
  destruct e; cbn; unfold none, never, opposite; try lia.
  all: first [destruct t; lia|destruct (st =? SUCCESS); lia].
Qed.

(** * Create Connection *)

Definition waits (a : addr) (c : connections) : Z :=
  match snd c with Some b => if list_eqb b a then 1 else 0 | None => 0 end%Z.

Lemma happens_waits : forall a c l c', happens c l c' -> l <> Forgotten -> (forall h b, l = Opened h b -> b <> a) ->
  (forall st b, l = Turned st b -> b <> a) ->
  (value (mentions a) none l + waits a c' = waits a c + match l with PageStarted b => if list_eqb b a then 1 else 0 | _ => 0 end)%Z.
Proof.
  assert (NE : forall b a, b <> a -> list_eqb b a = false).
  { intros b a D. destruct (list_eqb b a) eqn:E; auto. apply list_eqb_eq in E. congruence. }
  intros a c l c' H F O T. inversion H; subst; unfold waits; cbn [snd value]; unfold mentions, none; try lia.
  - rewrite (NE a0 a) by (eapply O; reflexivity). destruct p as [b|]; [|lia].
    destruct (list_eqb b a0) eqn:E; [|lia]. apply list_eqb_eq in E. subst. rewrite (NE a0 a) by (eapply O; reflexivity). lia.
  - rewrite (NE a0 a) by (eapply T; reflexivity). lia.
  - congruence.
Qed.

Lemma happen_waits : forall a c ls c', happen c ls c' -> (forall l, In l ls -> l <> Forgotten) ->
  (forall h b, In (Opened h b) ls -> b <> a) -> (forall st b, In (Turned st b) ls -> b <> a) ->
  (happened (mentions a) none ls + waits a c' = waits a c + total (fun l => match l with PageStarted b => if list_eqb b a then 1 else 0 | _ => 0 end) ls)%Z.
Proof.
  intros a c ls c' H. induction H; intros F O T; [cbn; lia|].
  unfold happened in *. rewrite !total_cons.
  pose proof (happens_waits a c l c' H) as P.
  assert (Q : l <> Forgotten) by (apply F; now left). specialize (P Q).
  assert (Q1 : forall h b, l = Opened h b -> b <> a) by (intros h b ->; apply (O h); now left). specialize (P Q1).
  assert (Q2 : forall st b, l = Turned st b -> b <> a) by (intros st b ->; apply (T st); now left). specialize (P Q2).
  assert (R := IHhappen ltac:(intros; apply F; now right) ltac:(intros h b I; apply (O h); now right) ltac:(intros st b I; apply (T st); now right)).
  lia.
Qed.

Lemma ends_total : forall a cs, Forall ends_link cs ->
  total (fun l => match l with PageStarted b => if list_eqb b a then 1 else 0 | _ => 0 end%Z) cs = 0%Z.
Proof. intros a cs H. induction H; auto. rewrite total_cons, IHForall. destruct x; destruct H; reflexivity. Qed.
Lemma timeout_total : forall a cs, Forall is_timeout cs ->
  total (fun l => match l with PageStarted b => if list_eqb b a then 1 else 0 | _ => 0 end%Z) cs = 0%Z.
Proof. intros a cs H. induction H; auto. rewrite total_cons, IHForall. destruct x; cbn in H; try destruct H; reflexivity. Qed.

(** What the operations other than those of the host about [a] cause *)
Lemma causes_plain : forall a o st ls, causes o st ls -> o <> Command Reset -> ~ answers a o ->
  (forall l, In l ls -> l <> Forgotten) /\ (forall h b, In (Opened h b) ls -> b <> a) /\ (forall t b, In (Turned t b) ls -> b <> a) /\
  (total (fun l => match l with PageStarted b => if list_eqb b a then 1 else 0 | _ => 0 end) ls =
   match o with Command (CreateConnection b _) => if list_eqb b a && succeeded st then 1 else 0 | _ => 0 end)%Z.
Proof.
  intros a o st ls H R N.
  assert (NIL : ls = [] -> (forall l, In l ls -> l <> Forgotten) /\ (forall h b, In (Opened h b) ls -> b <> a) /\ (forall t b, In (Turned t b) ls -> b <> a) /\
     total (fun l => match l with PageStarted b => if list_eqb b a then 1 else 0 | _ => 0 end%Z) ls = 0%Z).
  { intros ->. split; [|split; [|split]]; [intros l []|intros h b []|intros t b []|reflexivity]. }
  assert (ONE : forall x, ls = [x] -> x <> Forgotten -> (forall h b, x = Opened h b -> b <> a) -> (forall t b, x = Turned t b -> b <> a) ->
     (forall l, In l ls -> l <> Forgotten) /\ (forall h b, In (Opened h b) ls -> b <> a) /\ (forall t b, In (Turned t b) ls -> b <> a) /\
     total (fun l => match l with PageStarted b => if list_eqb b a then 1 else 0 | _ => 0 end%Z) ls =
     match x with PageStarted b => if list_eqb b a then 1 else 0 | _ => 0 end%Z).
  { intros x -> P1 P2 P3. split; [intros l [<-|[]]; auto|]. split; [intros h b [E|[]]; eapply P2, E|]. split; [intros t b [E|[]]; eapply P3, E|].
    cbn. lia. }
  assert (X : forall P : Prop, ~ P -> P -> False) by auto.
  destruct o as [c| | | |]; cbn [causes] in H; try (apply NIL; exact H).
  - destruct c; cbn [causes] in H; try (apply NIL; exact H).
    + destruct (succeeded st); [|rewrite Bool.andb_false_r; now apply NIL]. rewrite Bool.andb_true_r.
      apply (ONE (PageStarted a0)); auto; discriminate.
    + destruct (succeeded st); [|now apply NIL]. apply (ONE (PageEnded UNKNOWN_CONNECTION a0)); auto; discriminate.
    + destruct H as [H|[H|[H|(h' & H)]]]; [now apply NIL| | |].
      * apply (ONE _ H); discriminate.
      * apply (ONE _ H); discriminate.
      * subst. split; [intros l [<-|[<-|[]]]; discriminate|]. split; [intros k b [E|[E|[]]]; discriminate|].
        split; [intros k b [E|[E|[]]]; discriminate|]. reflexivity.
    + destruct H as [H|(h & H)]; [now apply NIL|]. apply (ONE _ H); try discriminate.
      intros h' b [= <- <-] ->. apply N. reflexivity.
    + destruct (succeeded st); [|now apply NIL]. apply (ONE _ H); try discriminate.
      intros h' b [= <- <-] ->. apply N. reflexivity.
    + congruence.
  - destruct (content p); try (apply NIL; exact H).
    + destruct H as [H|(h & H)]; [now apply NIL|]. apply (ONE _ H); discriminate.
    + destruct H as [H|(h & H)]; [now apply NIL|]. apply (ONE _ H); discriminate.
    + destruct H as [H|H]; [now apply NIL|]. apply (ONE _ H); discriminate.
    + destruct H as [H|(h & H)]; [now apply NIL|]. apply (ONE _ H); discriminate.
  - destruct H as (cs & ts & -> & A & B & _). rewrite Forall_forall in A, B. split; [|split; [|split]].
    + intros l I ->. apply in_app_iff in I. destruct I as [I|I]; [apply A in I|apply B in I]; exact I.
    + intros h b I. apply in_app_iff in I. destruct I as [I|I]; [apply A in I|apply B in I]; destruct I.
    + intros h b I. apply in_app_iff in I. destruct I as [I|I]; [apply A in I|apply B in I]; destruct I.
    + rewrite total_app, ends_total, timeout_total; [reflexivity| |]; now apply Forall_forall.
Qed.

Lemma explains_waits : forall a h lss c, explains h lss c ->
  (forall e, In e h -> what e <> Command Reset /\ ~ answers a (what e)) ->
  (total (happened (mentions a) none) lss + waits a c = creates a h)%Z.
Proof.
  intros a h lss c H. induction H; intros P; [reflexivity|].
  destruct (P e (or_introl eq_refl)) as (P1 & P2).
  destruct (causes_plain a _ _ _ H0 P1 P2) as (Q1 & Q2 & Q3 & Q4).
  pose proof (happen_waits a _ _ _ H1 Q1 Q2 Q3) as W. unfold creates in *. rewrite !total_cons, <- Q4.
  assert (I := IHexplains ltac:(intros x I; apply P; now right)). lia.
Qed.

Section WithOrder.
Variable order : table sco_link -> table sco_link.
Variable cfg : config.
Hypothesis any_order : forall t, Permutation (order t) t.

Theorem created_answered : forall a h s, history order cfg h s ->
  (forall e, In e h -> audible (what e) /\ what e <> Command Reset /\ ~ answers a (what e)) ->
  (completions a h + scheduled_completions a s + (if paging a s then 1 else 0) = creates a h)%Z.
Proof.
  intros a h s H P. destruct (history_explained order cfg any_order h s H) as (lss & E & T); [intros e I; now apply P|].
  pose proof (explains_waits a h lss _ E) as W. rewrite <- W by (intros e I; split; now apply P).
  rewrite <- T. unfold completions, scheduled_completions. unfold waits, seen. cbn [snd]. unfold paging.
  destruct (page s) as [p|]; cbn [option_map]; lia.
Qed.
End WithOrder.

(** * Handles *)

Definition is_open (k : N) (c : connections) : Z := if existsb (N.eqb k) (map fst (fst c)) then 1%Z else 0%Z.

Lemma existsb_in : forall k l, existsb (N.eqb k) l = true <-> In k l.
Proof.
  intros k l. rewrite existsb_exists. split.
  - intros (x & I & E). apply N.eqb_eq in E. now subst.
  - intros I. exists k. split; auto. apply N.eqb_refl.
Qed.

Lemma happens_open : forall k c l c', k <= 255 -> happens c l c' -> NoDup (map fst (fst c)) -> l <> Forgotten ->
  (forall b, l = PageEnded SUCCESS b -> k <> 0) ->
  NoDup (map fst (fst c')) /\ (value (opens k) (opposite (closes k)) l + is_open k c = is_open k c')%Z.
Proof.
  intros k c l c' R H ND F A.
  assert (GROW : forall (t : list (N * addr)) h b, ~ In h (map fst t) -> NoDup (map fst t) ->
    NoDup (map fst (t ++ [(h, b)])) /\ (opens k SUCCESS h b + is_open k (t, None) = is_open k (t ++ [(h, b)], None))%Z).
  { intros t h b N D. rewrite map_app. cbn [map fst]. split.
    - rewrite <- (rev_involutive (map fst t ++ [h])). apply NoDup_rev. rewrite rev_app_distr. cbn. constructor; [now rewrite <- in_rev|now apply NoDup_rev].
    - unfold is_open, opens. cbn [fst]. rewrite map_app, existsb_app. cbn [map fst existsb]. rewrite N.eqb_refl. cbn [andb].
      rewrite (N.eqb_sym h k). destruct (N.eqb_spec k h) as [->|D']; cbn [orb].
      + rewrite Bool.orb_true_r. destruct (existsb (N.eqb h) (map fst t)) eqn:E; [apply existsb_in in E; contradiction|lia].
      + rewrite Bool.orb_false_r. destruct (existsb _ _); lia. }
  inversion H; subst; cbn [fst] in *.
  - destruct (GROW t h a H0 ND) as (G1 & G2). split; auto.
  - destruct (GROW t h a H0 ND) as (G1 & G2). split; auto.
  - rewrite map_app in ND. cbn [map fst] in ND. split.
    + rewrite map_app. eapply NoDup_remove_1, ND.
    + cbn [value]. unfold opposite, closes, is_open. cbn [fst]. rewrite !map_app, !existsb_app. cbn [map fst existsb].
      rewrite (N.eqb_sym h k). destruct (N.eqb_spec k h) as [->|D]; cbn [orb].
      * apply NoDup_remove_2 in ND. rewrite Bool.orb_true_r. rewrite <- existsb_app.
        destruct (existsb (N.eqb h) (map fst t1 ++ map fst t2)) eqn:E; [apply existsb_in in E; contradiction|lia].
      * destruct (_ || _); lia.
  - split; auto. cbn [value]. unfold opposite, closes. destruct (N.eqb_spec h k); [lia|]. lia.
  - split; auto.
  - split; auto. cbn [value]. unfold opens. destruct (N.eqb_spec st SUCCESS) as [->|D]; cbn [andb]; [|unfold is_open; cbn [fst]; lia].
    destruct (N.eqb_spec 0 k) as [<-|D]; [|unfold is_open; cbn [fst]; lia]. exfalso. now apply (A a).
  - split; auto. cbn [value]. unfold opens. destruct (N.eqb_spec 0xeff k); [lia|]. rewrite Bool.andb_false_r. lia.
  - congruence.
Qed.

Lemma happen_open : forall k c ls c', k <= 255 -> happen c ls c' -> NoDup (map fst (fst c)) -> (forall l, In l ls -> l <> Forgotten) ->
  (forall b, In (PageEnded SUCCESS b) ls -> k <> 0) ->
  NoDup (map fst (fst c')) /\ (happened (opens k) (opposite (closes k)) ls + is_open k c = is_open k c')%Z.
Proof.
  intros k c ls c' R H. induction H; intros ND F A; [split; auto|].
  destruct (happens_open k c l c' R H ND) as (N1 & E1).
  - apply F. now left.
  - intros b ->. apply (A b). now left.
  - destruct IHhappen as (N2 & E2); auto.
    + intros x I. apply F. now right.
    + intros b I. apply (A b). now right.
    + split; auto. unfold happened in *. rewrite total_cons. lia.
Qed.

Lemma causes_sane : forall k o st ls, causes o st ls -> o <> Command Reset -> (absurd o -> k <> 0) ->
  (forall l, In l ls -> l <> Forgotten) /\ (forall b, In (PageEnded SUCCESS b) ls -> k <> 0).
Proof.
  intros k o st ls H R A.
  assert (ONE : forall x, ls = [x] -> x <> Forgotten -> (forall b, x = PageEnded SUCCESS b -> k <> 0) ->
     (forall l, In l ls -> l <> Forgotten) /\ (forall b, In (PageEnded SUCCESS b) ls -> k <> 0)).
  { intros x -> P1 P2. split; [intros l [<-|[]]; auto|]. intros b [E|[]]. now apply (P2 b). }
  assert (NIL : ls = [] -> (forall l, In l ls -> l <> Forgotten) /\ (forall b, In (PageEnded SUCCESS b) ls -> k <> 0)).
  { intros ->. split; [intros l []|intros b []]. }
  destruct o as [c| | | |]; cbn [causes] in H; try (apply NIL; exact H).
  - destruct c; cbn [causes] in H; try (apply NIL; exact H).
    + destruct (succeeded st); [|now apply NIL]. apply (ONE _ H); discriminate.
    + destruct (succeeded st); [|now apply NIL]. apply (ONE _ H); discriminate.
    + destruct H as [H|[H|[H|(h' & H)]]]; [now apply NIL| | |].
      * apply (ONE _ H); discriminate.
      * apply (ONE _ H); discriminate.
      * subst. split; [intros l [<-|[<-|[]]]; discriminate|]. intros b [E|[E|[]]]; discriminate.
    + destruct H as [H|(h & H)]; [now apply NIL|]. apply (ONE _ H); discriminate.
    + destruct (succeeded st); [|now apply NIL]. apply (ONE _ H); discriminate.
    + congruence.
  - destruct (content p) eqn:EC; try (apply NIL; exact H).
    + destruct H as [H|(h & H)]; [now apply NIL|]. apply (ONE _ H); discriminate.
    + destruct H as [H|(h & H)]; [now apply NIL|]. apply (ONE _ H); discriminate.
    + destruct H as [H|H]; [now apply NIL|]. apply (ONE _ H); try discriminate. intros b [= -> _]. now apply A.
    + destruct H as [H|(h & H)]; [now apply NIL|]. apply (ONE _ H); discriminate.
  - destruct H as (cs & ts & -> & B & D & _). rewrite Forall_forall in B, D. split.
    + intros l I ->. apply in_app_iff in I. destruct I as [I|I]; [apply B in I|apply D in I]; exact I.
    + intros b I. apply in_app_iff in I. destruct I as [I|I]; [apply B in I; destruct I|apply D in I; discriminate].
Qed.

Lemma explains_open : forall k h lss c, k <= 255 -> explains h lss c ->
  (forall e, In e h -> what e <> Command Reset /\ (absurd (what e) -> k <> 0)) ->
  NoDup (map fst (fst c)) /\ (total (happened (opens k) (opposite (closes k))) lss = is_open k c)%Z.
Proof.
  intros k h lss c R H. induction H; intros P; [split; [constructor|reflexivity]|].
  destruct (P e (or_introl eq_refl)) as (P1 & P2). destruct (causes_sane k _ _ _ H0 P1 P2) as (Q1 & Q2).
  destruct IHexplains as (N1 & E1); [intros x I; apply P; now right|].
  destruct (happen_open k _ _ _ R H1 N1 Q1 Q2) as (N2 & E2). split; auto. rewrite total_cons. lia.
Qed.

Section WithOrder2.
Variable order : table sco_link -> table sco_link.
Variable cfg : config.
Hypothesis any_order : forall t, Permutation (order t) t.

Theorem announced_finished : forall k h s, k <= 255 -> history order cfg h s ->
  (forall e, In e h -> audible (what e) /\ what e <> Command Reset /\ (absurd (what e) -> k <> 0)) ->
  (announced k h + announced_next k s = finished k h + finished_next k s + (if has (acls s) k then 1 else 0))%Z.
Proof.
  intros k h s R H P. destruct (history_explained order cfg any_order h s H) as (lss & E & T); [intros e I; now apply P|].
  destruct (explains_open k h lss _ R E) as (_ & W); [intros e I; split; now apply P|].
  specialize (T (opens k) (opposite (closes k))). rewrite W in T.
  rewrite (total_minus _ _ (fun e => told (opens k) none (sent e)) (fun e => told never (closes k) (sent e)) h) in T by (intros; apply told_minus).
  rewrite to_tell_minus in T. unfold announced, announced_next, finished, finished_next.
  assert (O : is_open k (seen s) = (if has (acls s) k then 1 else 0)%Z).
  { unfold is_open, seen, has. cbn [fst]. rewrite map_map. cbn [fst].
    replace (existsb (N.eqb k) (map (fun x => fst x) (acls s))) with (existsb (fun e => fst e =? k) (acls s)); auto.
    induction (acls s) as [|x t IH]; cbn [existsb map]; auto. now rewrite IH, N.eqb_sym. }
  lia.
Qed.
End WithOrder2.
