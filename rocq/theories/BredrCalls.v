(** Synchronous connections between two BR/EDR controllers: what the hosts see. *)
From Coq Require Import Permutation.
From Verif Require Import Prelude Table Sco Bredr BredrBase BredrInv BredrConn BredrSpec BredrRefine BredrTime BredrFrame BredrData BredrFlow BredrPairSpec BredrPair BredrRemote BredrRole BredrRoles BredrSyncSpec BredrSync BredrSyncPair.
Open Scope N_scope.

Lemma quiet_bodies : forall x l, (forall p, In p l -> dials p = false) -> bodies x l = [].
Proof. intros. now apply bodies_none. Qed.
Lemma in_phase_flip : forall a b w, in_phase a b w -> in_phase b a (flip w).
Proof. intros a b w P. unfold in_phase. apply phase_flip. exact P. Qed.
Lemma steady_flip : forall a b k k' w, sync_steady a b k k' w -> sync_steady b a k' k (flip w).
Proof. intros a b k k' w (A & B & C & D). split; [exact B|]. split; [exact A|]. split; [exact D|exact C]. Qed.
Theorem dialling_flip : forall order1 order2 cfg1 cfg2 a b k k' hl hr w0 nl nr w, dialling order1 order2 cfg1 cfg2 a b k k' hl hr w0 nl nr w ->
  dialling order2 order1 cfg2 cfg1 b a k' k hr hl (flip w0) nr nl (flip w).
Proof.
  intros order1 order2 cfg1 cfg2 a b k k' hl hr w0 nl nr w M. induction M as [R S|nl nr w e w' M IH PO MV T S|nl nr w e w' M IH PO MV T S].
  - apply hung_up; [now apply flip_reaches|now apply steady_flip].
  - apply right_dials with (w := flip w); auto. { exact (flip_moves _ _ _ _ _ _ _ _ _ _ MV). } now apply steady_flip.
  - apply left_dials with (w := flip w); auto. { exact (flip_moves _ _ _ _ _ _ _ _ _ _ MV). } now apply steady_flip.
Qed.

Section Calls.
Variables (order1 order2 : table sco_link -> table sco_link) (cfg1 cfg2 : config) (a b : addr).
Hypothesis any1 : forall t, Permutation (order1 t) t.
Hypothesis any2 : forall t, Permutation (order2 t) t.
Variables k k' : N.
Let dial := dialling order1 order2 cfg1 cfg2 a b k k'.

Lemma dialling_reaches : forall hl hr w0 nl nr w, dial hl hr w0 nl nr w -> reaches order1 order2 cfg1 cfg2 a b (nl ++ hl) (nr ++ hr) w /\ sync_steady a b k k' w.
Proof.
  intros hl hr w0 nl nr w M. induction M as [R S|nl nr w e w' M (R & _) PO MV T S|nl nr w e w' M (R & _) PO MV T S]; auto; (split; [|exact S]); [eapply left_moves|eapply right_moves]; eassumption.
Qed.
Lemma hung_up_phase : forall w, hung_up_both a b w -> in_phase a b w.
Proof. intros w (A & B & Q1 & Q2). unfold in_phase, shape. rewrite A, B, (bodies_none b _ Q1), (bodies_none a _ Q2). constructor. Qed.
Lemma dialling_phase : forall hl hr w0 nl nr w, hung_up_both a b w0 -> dial hl hr w0 nl nr w -> in_phase a b w.
Proof.
  intros hl hr w0 nl nr w Q M. induction M as [R S|nl nr w e w' M IH PO MV T S|nl nr w e w' M IH PO MV T S].
  - now apply hung_up_phase.
  - destruct (dialling_reaches _ _ _ _ _ _ M) as (R & SW). exact (proj1 (left_step order1 order2 cfg1 cfg2 a b any1 any2 k k' _ _ _ _ _ R MV T PO SW S IH)).
  - destruct (dialling_reaches _ _ _ _ _ _ M) as (R & SW).
    pose proof (proj1 (left_step order2 order1 cfg2 cfg1 b a any2 any1 k' k _ _ (flip w) e (flip w') (flip_reaches _ _ _ _ _ _ _ _ _ R) (flip_moves _ _ _ _ _ _ _ _ _ _ MV) T PO (steady_flip _ _ _ _ _ SW) (steady_flip _ _ _ _ _ S) (in_phase_flip _ _ _ IH))) as X.
    exact (in_phase_flip _ _ _ X).
Qed.

(** ** Both ends *)
Lemma in_call_shape : forall x l s, in_call x l s -> exists q, In (OPENED, q, l) (shape x s).
Proof. intros x l s (h & c & I & O & G). exists (sco_params c). unfold shape. apply in_map_iff. exists (h, c). split; [|exact I]. unfold seen. cbn [snd]. now rewrite O, G. Qed.
Lemma shape_in_call : forall x q l s, In (OPENED, q, l) (shape x s) -> in_call x l s.
Proof. intros x q l s I. unfold shape in I. apply in_map_iff in I. destruct I as ([h c] & E & I). exists h, c. unfold seen in E. cbn [snd] in E. injection E as E1 E2 E3. auto. Qed.
Lemma calling_shape : forall x s, calling x s <-> exists v, In v (shape x s) /\ fst (fst v) = PENDING.
Proof.
  intros x s. split.
  - intros (h & c & I & P). exists (seen c). split; [|exact P]. unfold shape. apply in_map_iff. exists (h, c). auto.
  - intros (v & I & P). unfold shape in I. apply in_map_iff in I. destruct I as ([h c] & <- & I). exists h, c. auto.
Qed.
Lemma called_shape : forall x s, called x s <-> exists v, In v (shape x s) /\ (fst (fst v) = SENT_ESCO_CONNECTION_REQUEST \/ fst (fst v) = SENT_SCO_CONNECTION_REQUEST).
Proof.
  intros x s. split.
  - intros (h & c & I & P). exists (seen c). split; [|exact P]. unfold shape. apply in_map_iff. exists (h, c). auto.
  - intros (v & I & P). unfold shape in I. apply in_map_iff in I. destruct I as ([h c] & <- & I). exists h, c. auto.
Qed.
Lemma ringing_called : forall q, fst (fst (ringing q)) = SENT_ESCO_CONNECTION_REQUEST \/ fst (fst (ringing q)) = SENT_SCO_CONNECTION_REQUEST.
Proof. intros q. unfold ringing. destruct (is_extended q); auto. Qed.
Lemma bodies_in : forall x l y, In y (bodies x l) -> exists p, In p l /\ content p = y.
Proof. intros x l y I. unfold bodies in I. apply in_map_iff in I. destruct I as (p & E & I). apply filter_In in I. destruct I as (I & _). apply filter_In in I. exists p. now destruct I. Qed.
Lemma shape_nil : forall x s, shape x s = [] -> calls x s = [].
Proof. intros x s E. unfold shape in E. now destruct (calls x s). Qed.

Section From.
Variables (hl hr : list entry) (w0 : world) (nl nr : list entry) (w : world).
Hypothesis start : hung_up_both a b w0.
Hypothesis M : dial hl hr w0 nl nr w.
Theorem same_call : forall l l', in_call b l (left w) -> in_call a l' (right w) -> l = l'.
Proof.
  intros l l' H1 H2. destruct (in_call_shape _ _ _ H1) as (q1 & I1). destruct (in_call_shape _ _ _ H2) as (q2 & I2). pose proof (dialling_phase _ _ _ _ _ _ start M) as P.
  unfold in_phase in P. inversion P as [E1 E2|q l0 F E1 E2|q c E1 E2|q E1 E2|q st l0 NS E1 E2|q l0 F E1 E2|q c E1 E2|q E1 E2|q st l0 NS E1 E2|q l0 F E1 E2|q q' c c' E1 E2|q q' c' st l0 NS E1 E2|q q' c st l0 NS E1 E2|q q' st l0 st' l1 NS NS' E1 E2|q q' c st l0 NS E1 E2|q q' c st l0 NS E1 E2];
    rewrite <- E1 in I1; rewrite <- E2 in I2; cbn in I1, I2; try contradiction; destruct I1 as [I1|[]]; destruct I2 as [I2|[]]; congruence.
Qed.
Theorem one_sided_call : forall l, in_call b l (left w) -> in_call a l (right w) \/ (calling a (right w) /\ exists p, In p (way_right b w) /\ content p = ScoResponse SUCCESS l).
Proof.
  intros l H1. destruct (in_call_shape _ _ _ H1) as (q1 & I1). pose proof (dialling_phase _ _ _ _ _ _ start M) as P.
  unfold in_phase in P. inversion P as [E1 E2|q l0 F E1 E2|q c E1 E2|q E1 E2|q st l0 NS E1 E2|q l0 F E1 E2|q c E1 E2|q E1 E2|q st l0 NS E1 E2|q l0 F E1 E2 E3|q q' c c' E1 E2|q q' c' st l0 NS E1 E2|q q' c st l0 NS E1 E2|q q' st l0 st' l1 NS NS' E1 E2|q q' c st l0 NS E1 E2|q q' c st l0 NS E1 E2];
    rewrite <- E1 in I1; cbn in I1; try contradiction; destruct I1 as [I1|[]]; try discriminate; try (unfold ringing in I1; destruct (is_extended q); discriminate); injection I1 as <- <-.
  - left. apply shape_in_call with (q := q). rewrite <- E2. now left.
  - right. split. { apply calling_shape. eexists. rewrite <- E2. split; [now left|reflexivity]. } apply (bodies_in b). rewrite <- E3. now left.
Qed.
Theorem call_agreed : forall l, in_call b l (left w) -> in_call a l (right w) -> exists h c h' c' p,
  In (h, c) (calls b (left w)) /\ In (h', c') (calls a (right w)) /\ sco_params c = sco_params c' /\
  negotiate (if is_extended (sco_params c) then SENT_ESCO_CONNECTION_REQUEST else SENT_SCO_CONNECTION_REQUEST) (sco_params c) p = Some l.
Proof.
  intros l (h & c & I1 & O1 & G1) (h' & c' & I2 & O2 & G2). pose proof (dialling_phase _ _ _ _ _ _ start M) as P.
  assert (J1 : In (seen c) (shape b (left w))) by (unfold shape; apply in_map_iff; exists (h, c); auto).
  assert (J2 : In (seen c') (shape a (right w))) by (unfold shape; apply in_map_iff; exists (h', c'); auto).
  unfold seen in J1, J2. rewrite O1, G1 in J1. rewrite O2, G2 in J2.
  unfold in_phase in P. inversion P as [E1 E2|q l0 F E1 E2|q c1 E1 E2|q E1 E2|q st l0 NS E1 E2|q l0 F E1 E2|q c1 E1 E2|q E1 E2|q st l0 NS E1 E2|q l0 F E1 E2 E3|q q' c1 c1' E1 E2|q q' c1' st l0 NS E1 E2|q q' c1 st l0 NS E1 E2|q q' st l0 st' l1 NS NS' E1 E2|q q' c1 st l0 NS E1 E2|q q' c1 st l0 NS E1 E2];
    rewrite <- E1 in J1; rewrite <- E2 in J2; cbn in J1, J2; try contradiction; destruct J1 as [J1|[]]; destruct J2 as [J2|[]]; try discriminate.
  injection J1 as Q1 L1. injection J2 as Q2 L2. destruct F as (p & F). subst l0. exists h, c, h', c', p. split; auto. split; auto. rewrite <- Q1, <- Q2. split; auto.
Qed.
Theorem settled_calls : sync_quiet a b w -> ~ called b (left w) -> ~ called a (right w) ->
  (calls b (left w) = [] /\ calls a (right w) = []) \/ exists l, in_call b l (left w) /\ in_call a l (right w).
Proof.
  intros (Q1 & Q2) N1 N2. pose proof (dialling_phase _ _ _ _ _ _ start M) as P. unfold in_phase in P. rewrite (bodies_none b _ Q1), (bodies_none a _ Q2) in P.
  inversion P as [E1 E2|q l F E1 E2| |q E1 E2| | | |q E1 E2| | | | | | | | ].
  - left. split; now apply shape_nil.
  - right. exists l. split; apply shape_in_call with (q := q); [rewrite <- E1|rewrite <- E2]; now left.
  - elim N2. apply called_shape. exists (ringing q). rewrite <- E2. split; [now left|apply ringing_called].
  - elim N1. apply called_shape. exists (ringing q). rewrite <- E1. split; [now left|apply ringing_called].
Qed.
Theorem waits_for_host : sync_quiet a b w -> calling b (left w) -> called a (right w).
Proof.
  intros (Q1 & Q2) CL. apply calling_shape in CL. destruct CL as (v & I & PV). pose proof (dialling_phase _ _ _ _ _ _ start M) as P. unfold in_phase in P. rewrite (bodies_none b _ Q1), (bodies_none a _ Q2) in P.
  inversion P as [E1 E2|q l F E1 E2| |q E1 E2| | | |q E1 E2| | | | | | | | ]; rewrite <- E1 in I; cbn in I; try contradiction; destruct I as [<-|[]]; try discriminate.
  - apply called_shape. exists (ringing q). rewrite <- E2. split; [now left|apply ringing_called].
  - exfalso. unfold ringing in PV. destruct (is_extended q); discriminate PV.
Qed.
Theorem caller_waits : called a (right w) -> calling b (left w) /\ sync_quiet a b w.
Proof.
  intros CL. apply called_shape in CL. destruct CL as (v & I & PV). pose proof (dialling_phase _ _ _ _ _ _ start M) as P.
  assert (QT : forall x l, (forall p, In p l -> addressed x p = true) -> bodies x l = [] -> forall p, In p l -> dials p = false).
  { intros x l AD E p J. destruct (dials p) eqn:D; auto. exfalso. assert (X : In (content p) (bodies x l)). { unfold bodies. apply in_map. apply filter_In. split; auto. apply filter_In. auto. } rewrite E in X. exact X. }
  destruct (dialling_reaches _ _ _ _ _ _ M) as (R & _). destruct (dials_honest _ _ _ _ _ _ any1 any2 _ _ _ R) as (HR & HL). rewrite Forall_forall in HR, HL.
  unfold in_phase in P. inversion P as [E1 E2|q l0 F E1 E2|q c E1 E2|q E1 E2 E3 E4|q st l0 NS E1 E2|q l0 F E1 E2|q c E1 E2|q E1 E2|q st l0 NS E1 E2|q l0 F E1 E2 E3|q q' c c' E1 E2|q q' c' st l0 NS E1 E2|q q' c st l0 NS E1 E2|q q' st l0 st' l1 NS NS' E1 E2|q q' c st l0 NS E1 E2|q q' c st l0 NS E1 E2];
    rewrite <- E2 in I; cbn in I; try contradiction; destruct I as [<-|[]]; cbn in PV; try (destruct PV; discriminate).
  split. { apply calling_shape. eexists. rewrite <- E1. split; [now left|reflexivity]. }
  split; [eapply (QT b)|eapply (QT a)]; try (now symmetry); intros p J; [apply (HR p J)|apply (HL p J)].
Qed.

(** ** What the host on the left is told *)
Lemma told_co : forall e h, calls_told b (e :: h) = calls_told b h ++ co b (sent e).
Proof. intros e h. unfold calls_told. cbn [rev]. rewrite flat_map_app. cbn [flat_map]. now rewrite app_nil_r. Qed.
Lemma held_undecided : forall s, (List.length (calls b s) <= 1)%nat -> held (shape b s) = undecided b s.
Proof. intros s LE. unfold undecided, shape. destruct (calls b s) as [|[h c] [|e l]]; [reflexivity| |cbn in LE; lia]. cbn [map held filter snd]. rewrite pend_seen. now destruct (is_pending c). Qed.
Lemma opened_open : forall s, (List.length (calls b s) <= 1)%nat -> opened (shape b s) = open_calls b s.
Proof. intros s LE. unfold open_calls, shape. destruct (calls b s) as [|[h c] [|e l]]; [reflexivity| |cbn in LE; lia]. cbn [map opened filter snd]. unfold seen. now destruct (sco_now c). Qed.
End From.
Theorem calls_accounted : forall hl hr w0 nl nr w, hung_up_both a b w0 -> calls_to_tell b (left w0) = [] -> dial hl hr w0 nl nr w ->
  (List.length (calls_told b nl) + List.length (calls_to_tell b (left w)) + undecided b (left w) = call_commands k nl + call_requests b nl)%nat /\
  (successful (calls_told b nl) + successful (calls_to_tell b (left w)) = open_calls b (left w))%nat.
Proof.
  intros hl hr w0 nl nr w Q E0 M.
  enough (G : (List.length (calls_told b nl) + List.length (calls_to_tell b (left w)) + held (shape b (left w)) = call_commands k nl + call_requests b nl)%nat /\
    (successful (calls_told b nl) + successful (calls_to_tell b (left w)) = opened (shape b (left w)))%nat).
  { destruct (dialling_reaches _ _ _ _ _ _ M) as (_ & (_ & LE & _) & _). now rewrite <- held_undecided, <- opened_open. }
  induction M as [R S|nl nr w e w' M IH PO MV T S|nl nr w e w' M IH PO MV T S].
  - destruct Q as (C & _). unfold shape. rewrite E0, C. split; reflexivity.
  - destruct (dialling_reaches _ _ _ _ _ _ M) as (R & SW). pose proof (dialling_phase _ _ _ _ _ _ Q M) as P.
    destruct (left_step order1 order2 cfg1 cfg2 a b any1 any2 k k' _ _ _ _ _ R MV T PO SW S P) as (_ & X1 & X2).
    assert (SA : forall l l', successful (l ++ l') = (successful l + successful l')%nat) by (intros; unfold successful; now rewrite filter_app, app_length).
    rewrite told_co, app_length, SA. change (successful (co b (sent e))) with (successes (co b (sent e))). change (successful (calls_to_tell b (left w'))) with (successes (calls_to_tell b (left w'))).
    change (successful (calls_to_tell b (left w))) with (successes (calls_to_tell b (left w))) in IH.
    assert (CC : call_commands k (e :: nl) = (one_if (is_setup k (what e) (status_of e)) + call_commands k nl)%nat).
    { unfold call_commands. cbn [filter]. unfold is_setup, one_if. destruct (what e) as [c| | | |]; auto. destruct c; auto; destruct (status_of e); auto; destruct ((h =? k) && (s =? SUCCESS)); reflexivity. }
    assert (CR : call_requests b (e :: nl) = (List.length (filter (rings b) (sent e)) + call_requests b nl)%nat). { unfold call_requests. cbn [flat_map]. now rewrite app_length. }
    rewrite CC, CR. lia.
  - destruct (dialling_reaches _ _ _ _ _ _ M) as (R & SW). destruct (right_way _ _ _ _ _ _ any1 any2 _ _ _ _ _ R MV T) as (LE & _). rewrite LE. now apply IH.
Qed.
End Calls.
