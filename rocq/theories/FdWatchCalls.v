(** Which callbacks are called: proofs for FdWatchSpec.v. *)
From Verif Require Import Prelude FdWatch FdWatchSpec FdWatchProofs.
From Coq Require Import ZArith Sorting.Sorted.
Open Scope Z_scope.

Lemma runs_snoc s r s1 a e s' : runs s r s1 -> step s1 a = Next s' e -> runs s (r ++ [(a, e)]) s'.
Proof. intros R S. apply runs_app. exists s1. split; [exact R|]. econstructor; [exact S|constructor]. Qed.

(** To prove something of all the runs from the start *)
Lemma runs_rev (P : run -> state -> Prop) s0 : P [] s0 ->
  (forall r s a e s', runs s0 r s -> P r s -> step s a = Next s' e -> P (r ++ [(a, e)]) s') -> forall r s, runs s0 r s -> P r s.
Proof.
  intros P0 PS r. induction r as [|[a e] r IH] using rev_ind; intros s R; [inversion R; subst; exact P0|].
  apply runs_app in R as (s1 & R1 & R2). inversion R2 as [|? ? s2 ? ? ? S R3]; subst. inversion R3; subst. eapply PS; eauto.
Qed.

(** * What is watched *)
Lemma notify_watched s : watched (notify s) = watched s. Proof. apply notify_same. Qed.
Lemma notify_place s : place_of (notify s) = place_of s. Proof. apply notify_same. Qed.
Lemma notify_readable s : readable (notify s) = readable s. Proof. apply notify_same. Qed.

Lemma step_callback s a s' e f : step s a = Next s' e -> good s -> find_cb (watched s') f = callback_after f (find_cb (watched s) f) a.
Proof.
  intros S G. pose proof (sorted_nodup _ (g_sorted _ G)) as ND.
  destruct a; cbn [step] in S; crack S; try discriminate S; injection S as <- <-; fields; rewrite ?notify_watched; fields; unfold callback_after; cbn [unwatches];
    rewrite ?find_assign, ?find_erase by exact ND; rewrite ?(Z.eqb_sym f); try reflexivity.
Qed.

Lemma runs_callback r s f : runs start r s -> callback_for f r = find_cb (watched s) f.
Proof.
  intros R. revert r s R. apply runs_rev; [reflexivity|]. intros r s a e s' R IH S. unfold callback_for in *. rewrite fold_left_app. cbn [fold_left fst].
  rewrite IH. symmetry. apply (step_callback _ _ _ _ _ S). exact (runs_good _ _ _ R good_start).
Qed.

Lemma runs_data r s f : runs start r s -> data f r = readable s f.
Proof.
  intros R. revert r s R. apply runs_rev; [reflexivity|]. intros r s a e s' R IH S. unfold data in *. rewrite fold_left_app. cbn [fold_left fst]. rewrite IH.
  destruct a; cbn [step] in S; crack S; try discriminate S; injection S as <- <-; fields; rewrite ?notify_readable; fields; rewrite ?(Z.eqb_sym f); reflexivity.
Qed.

(** * The rounds *)
Lemma calls_app r1 r2 : calls_of (r1 ++ r2) = calls_of r1 ++ calls_of r2.
Proof. apply flat_map_app. Qed.
Lemma free_snoc p r x : free_of p r -> p (fst x) = false -> free_of p (r ++ [x]).
Proof. intros F E y I. apply in_app_iff in I as [I|[<-|[]]]; auto. Qed.
Lemma free_nil p : free_of p []. Proof. intros x []. Qed.

Definition round_free (r : run) : Prop := free_of is_wake r /\ free_of is_take r /\ free_of is_done r.
Lemma round_snoc r x : round_free r -> is_wake (fst x) || is_take (fst x) || is_done (fst x) = false -> round_free (r ++ [x]).
Proof. intros (A & B & C) E. apply orb_false_iff in E as [E E3]. apply orb_false_iff in E as [E1 E2]. repeat split; now apply free_snoc. Qed.
Lemma round_nil : round_free []. Proof. repeat split; apply free_nil. Qed.

Definition ready_of (p : place) : option (list fd) := match p with Woken l _ | Drained l | Collect l => Some l | _ => None end.

Definition rounds (r : run) (s : state) : Prop :=
  (forall l, ready_of (place_of s) = Some l -> exists r0 e r1, r = r0 ++ (Wake, e) :: r1 /\ round_free r1 /\ forall f, In f l -> data f r0 = true) /\
  (forall l, place_of s = Calling l -> exists r0 r1 r2 e1 e2, r = r0 ++ (Wake, e1) :: r1 ++ (Take, e2) :: r2 /\ round_free r1 /\ round_free r2 /\
     forall f c, In (f, c) l -> data f r0 = true /\ callback_for f (r0 ++ (Wake, e1) :: r1) = Some c /\ (forall g d, In (g, d) (calls_of r2) -> g < f)).

Definition same_round (s s' : state) : Prop := ready_of (place_of s') = ready_of (place_of s) /\ (forall l, place_of s' = Calling l -> place_of s = Calling l).

Lemma rounds_same r s a e s' : rounds r s -> same_round s s' -> is_wake a || is_take a || is_done a = false -> calls_of [(a, e)] = [] -> rounds (r ++ [(a, e)]) s'.
Proof.
  intros [A B] [E1 E2] F C. split.
  - intros l H. rewrite E1 in H. destruct (A l H) as (r0 & e0 & r1 & -> & F1 & D). exists r0, e0, (r1 ++ [(a, e)]).
    rewrite <- app_assoc. cbn [app]. split; [reflexivity|]. split; [now apply round_snoc|exact D].
  - intros l H. destruct (B l (E2 l H)) as (r0 & r1 & r2 & e1 & e2 & -> & F1 & F2 & D). exists r0, r1, (r2 ++ [(a, e)]), e1, e2.
    rewrite <- app_assoc. cbn [app]. rewrite <- app_assoc. cbn [app]. split; [reflexivity|]. split; [exact F1|]. split; [now apply round_snoc|].
    intros f c I. destruct (D f c I) as (D1 & D2 & D3). split; [exact D1|]. split; [exact D2|]. intros g d J. rewrite calls_app, C, app_nil_r in J. exact (D3 g d J).
Qed.
Lemma rounds_none r s : ready_of (place_of s) = None -> (forall l, place_of s <> Calling l) -> rounds r s.
Proof. intros A B. split; [intros l H; congruence|intros l H; destruct (B l H)]. Qed.

Lemma runs_rounds r s : runs start r s -> rounds r s.
Proof.
  intros R. revert r s R. apply runs_rev; [apply rounds_none; [reflexivity|discriminate]|]. intros r s a e s' R IH S.
  pose proof (runs_good _ _ _ R good_start) as G.
  assert (same_round s s' -> is_wake a || is_take a || is_done a = false -> calls_of [(a, e)] = [] -> rounds (r ++ [(a, e)]) s') as K by (now apply rounds_same).
  destruct a; cbn [step] in S.
  1-3,5-9,18-21: crack S; try discriminate S; injection S as <- <-; (apply K; [split; fields; rewrite ?notify_place; fields; auto; congruence|reflexivity|reflexivity]).
  - (* Spawn *) crack S. injection S as <- <-. apply rounds_none; fields; [reflexivity|discriminate].
  - (* Check *) destruct (place_of s) eqn:P; try discriminate; injection S as <- <-.
    + apply rounds_none; fields; destruct (running s); (reflexivity || discriminate).
    + destruct (running s) eqn:RN; [apply K; [split; fields; [now rewrite P|discriminate]|reflexivity|reflexivity]|apply rounds_none; fields; [reflexivity|discriminate]].
  - (* SetUp *) destruct (place_of s); try discriminate. destruct (forallb _ _); [|discriminate]. injection S as <- <-. apply rounds_none; fields; [reflexivity|discriminate].
  - (* Wake *) destruct (place_of s) as [| | |l| | | |] eqn:P; try discriminate.
    assert (exists n, s' = set_place (Woken (List.filter (readable s) l) n) s) as (n & ->) by (crack S; injection S as <- <-; eauto).
    split; fields; [|discriminate]. cbn [ready_of]. intros l0 E. injection E as <-. exists r, e, []. split; [reflexivity|]. split; [exact round_nil|].
    intros f I. rewrite (runs_data _ _ _ R). now apply filter_In in I.
  - (* Fail *) destruct (place_of s); try discriminate. injection S as <- <-. apply rounds_none; fields; [reflexivity|discriminate].
  - (* Drain *) destruct (place_of s) eqn:P; try discriminate. injection S as <- <-. apply K; [split; destruct notified; fields; rewrite ?P; (reflexivity || discriminate)|reflexivity|reflexivity].
  - (* Take *) destruct (place_of s) eqn:P; try discriminate. injection S as <- <-. destruct IH as [A _]. rewrite P in A. destruct (A _ eq_refl) as (r0 & e0 & r1 & -> & F1 & D).
    split; fields; [discriminate|]. intros l E. injection E as <-. exists r0, r1, [], e0, []. rewrite <- app_assoc. cbn [app]. split; [reflexivity|]. split; [exact F1|]. split; [exact round_nil|].
    intros f c I. apply filter_In in I as [I J]. cbn [fst] in J. unfold in_list in J. apply existsb_exists in J as (g & J & E). apply Z.eqb_eq in E. subst g.
    split; [exact (D f J)|]. split; [|intros g d []]. rewrite (runs_callback _ _ f R). apply find_in; [apply sorted_nodup, G|exact I].
  - (* Call *) destruct (place_of s) as [| | | | | | |[|[f c] l]] eqn:P; try discriminate. injection S as <- <-. destruct IH as [_ B]. destruct (B _ P) as (r0 & r1 & r2 & e1 & e2 & -> & F1 & F2 & D).
    split; fields; [discriminate|]. intros l' E. injection E as <-. exists r0, r1, (r2 ++ [(Call, [Called f c])]), e1, e2.
    rewrite <- app_assoc. cbn [app]. rewrite <- app_assoc. cbn [app]. split; [reflexivity|]. split; [exact F1|]. split; [now apply round_snoc|].
    intros g d I. destruct (D g d (or_intror I)) as (D1 & D2 & D3). split; [exact D1|]. split; [exact D2|]. intros h b J. rewrite calls_app in J. apply in_app_iff in J as [J|[J|[]]]; [exact (D3 h b J)|].
    injection J as <- <-. pose proof (g_todo _ G _ P) as T. inversion T as [|? ? _ FA]; subst. rewrite Forall_forall in FA. apply FA. apply in_map_iff. now exists (g, d).
  - (* Done *) destruct (place_of s) as [| | | | | | |[|[f c] l]] eqn:P; try discriminate. injection S as <- <-. apply rounds_none; fields; [reflexivity|discriminate].
Qed.

Lemma free_app p r1 r2 : free_of p r1 -> free_of p r2 -> free_of p (r1 ++ r2).
Proof. intros A B x I. apply in_app_iff in I as [I|I]; auto. Qed.

(** A callback is called only when its descriptor has data, and it is the one that was given last. *)
Lemma called_justified r s a s' e f c : runs start r s -> step s a = Next s' e -> In (Called f c) e -> justified f c r.
Proof.
  intros R S I. pose proof (runs_rounds _ _ R) as [_ B].
  destruct a; cbn [step] in S; crack S; try discriminate S; injection S as <- <-; try (cbn [In] in I; firstorder congruence).
  destruct I as [I|[]]. injection I as <- <-. destruct (B _ eq_refl) as (r0 & r1 & r2 & e1 & e2 & -> & (F1 & F2 & F3) & (F4 & F5 & F6) & D).
  destruct (D _ _ (or_introl eq_refl)) as (D1 & D2 & D3). exists r0, r1, r2, e1, e2. repeat split; auto; now apply free_app.
Qed.

(** * When a descriptor is no longer watched *)
Definition gone (f : fd) (s : state) : Prop := ~ In f (keys (watched s)) /\ forall l, place_of s = Calling l -> ~ In f (keys l).

Lemma keys_filter p m f : In f (keys (List.filter p m)) -> In f (keys m).
Proof. unfold keys. intros I. apply in_map_iff in I as (x & E & I). apply filter_In in I as [I _]. apply in_map_iff. eauto. Qed.

Lemma gone_step f s a s' e : step s a = Next s' e -> watches f a = false -> gone f s -> gone f s'.
Proof.
  intros S W [A B]. unfold gone.
  destruct a; cbn [step] in S; crack S; try discriminate S; injection S as <- <-; fields; rewrite ?notify_watched, ?notify_place; fields; cbn [watches] in W;
    (split; [try exact A; try (rewrite keys_assign; intros [->|X]; [now rewrite Z.eqb_refl in W|exact (A X)]); try (rewrite keys_erase; intros [X _]; exact (A X)); intros []|]);
    try exact B; try discriminate; try (intros ? X; apply (B _); congruence);
    try (intros ? X; injection X as <-).
  - intros X. apply A. exact (keys_filter _ _ _ X).
  - intros X. apply (B _ eq_refl). now right.
Qed.
Lemma gone_call f s a s' e : step s a = Next s' e -> gone f s -> called f (a, e) = false.
Proof.
  intros S [A B]. unfold called. cbn [snd]. destruct a; cbn [step] in S; crack S; try discriminate S; injection S as <- <-; try reflexivity.
  cbn [existsb]. rewrite orb_false_r. apply Z.eqb_neq. intros ->. apply (B _ eq_refl). now left.
Qed.
Lemma gone_runs f s r s' : runs s r s' -> gone f s -> free_of (watches f) r -> forall x, In x r -> called f x = false.
Proof.
  induction 1 as [s|s a s1 e r s' S R IH]; intros G F x I; [destruct I|]. assert (watches f a = false) as W by exact (F (a, e) (or_introl eq_refl)).
  destruct I as [<-|I]; [exact (gone_call _ _ _ _ _ S G)|]. apply IH; [exact (gone_step _ _ _ _ _ S W G)|intros y J; apply F; now right|exact I].
Qed.

Lemma unwatched s t f e r s' : runs s ((Unwatch t f, e) :: r) s' -> free_of (watches f) r -> forall x, In x r -> called f x = false.
Proof.
  intros R F. inversion R as [|? ? s1 ? ? ? S R']; subst. apply (gone_runs _ _ _ _ R'); [|exact F]. cbn [step] in S. destruct (clients s t); try discriminate. unfold mutex_free in S.
  destruct (place_of s) eqn:P; try discriminate S; injection S as <- <-; (split; fields; [rewrite keys_erase; intros [_ X]; auto|intros l E; congruence]).
Qed.

(** ... by a callback *)
Lemma half_step f s a s' e : good s -> step s a = Next s' e -> watches f a = false -> is_done a = false -> ~ In f (keys (watched s)) -> (exists l, place_of s = Calling l) -> ~ In f (keys (watched s')) /\ exists l, place_of s' = Calling l.
Proof.
  intros G S W D A (l0 & P). assert (joinable s = true) as J by (destruct (joinable s) eqn:J; [reflexivity|apply (g_thread _ G) in J; congruence]).
  destruct a; cbn [step] in S; rewrite ?P, ?J in S; crack S; try discriminate S; try discriminate D; injection S as <- <-; fields; rewrite ?notify_watched, ?notify_place; fields; cbn [watches] in W;
    try (split; [try exact A; try (rewrite keys_assign; intros [->|X]; [now rewrite Z.eqb_refl in W|exact (A X)]); try (rewrite keys_erase; intros [X _]; exact (A X)); intros []|eauto]).
Qed.
Lemma unwatched_inside s f e r1 e1 r2 s' : good s -> runs s ((InUnwatch f, e) :: r1 ++ (Done, e1) :: r2) s' -> free_of (watches f) (r1 ++ r2) -> forall x, In x r2 -> called f x = false.
Proof.
  intros G R F. inversion R as [|? ? s1 ? ? ? S R']; subst. pose proof (good_step _ _ _ _ S G) as G1. cbn [step] in S. destruct (place_of s) eqn:P; try discriminate. injection S as <- <-.
  assert (~ In f (keys (watched (set_watched (erase (watched s) f) s)))) as A by (fields; rewrite keys_erase; intros [_ X]; auto).
  assert (place_of (set_watched (erase (watched s) f) s) = Calling todo) as B by (fields; exact P). revert A B R' F G1. generalize (set_watched (erase (watched s) f) s). clear.
  revert todo. induction r1 as [|[a ea] r1 IH]; cbn [app]; intros todo s A B R F G; inversion R as [|? ? s1 ? ? ? S R']; subst.
  - apply (gone_runs _ _ _ _ R'); [|intros y J; apply F; exact J]. cbn [step] in S. rewrite B in S. crack S. injection S as <- <-. split; fields; [exact A|discriminate].
  - destruct (is_done a) eqn:D.
    + destruct a; try discriminate. cbn [step] in S. rewrite B in S. crack S. injection S as <- <-. assert (gone f (set_place Top s)) as GG by (split; fields; [exact A|discriminate]).
      intros x I. apply (gone_runs _ _ _ _ R' GG); [|apply in_app_iff; right; now right].
      intros y J. apply in_app_iff in J as [J|[<-|J]]; [apply F; right; apply in_app_iff; auto|reflexivity|apply F; right; apply in_app_iff; auto].
    + destruct (half_step _ _ _ _ _ G S (F (a, ea) (or_introl eq_refl)) D A (ex_intro _ _ B)) as (A' & l' & B'). apply (IH _ _ A' B' R'); [intros y J; apply F; now right|exact (good_step _ _ _ _ S G)].
Qed.

(** * When the thread has ended *)
Lemma off_step s a s' e : step s a = Next s' e -> is_spawn a = false -> place_of s = Off -> place_of s' = Off /\ calls_of [(a, e)] = [].
Proof.
  intros S N P. destruct a; cbn [step] in S; rewrite ?P in S; crack S; try discriminate S; try discriminate N; injection S as <- <-; fields; rewrite ?notify_place; fields; auto.
Qed.
Lemma off_runs s r s' : runs s r s' -> free_of is_spawn r -> place_of s = Off -> calls_of r = [] /\ place_of s' = Off.
Proof.
  induction 1 as [s|s a s1 e r s' S R IH]; intros F P; [auto|]. destruct (off_step _ _ _ _ S (F (a, e) (or_introl eq_refl)) P) as [P1 C].
  destruct IH as [IH P2]; [intros y J; apply F; now right|exact P1|]. split; [|exact P2]. change ((a, e) :: r) with ([(a, e)] ++ r). now rewrite calls_app, C, IH.
Qed.
Lemma joined s t e r s' : runs s ((Join t, e) :: r) s' -> free_of is_spawn r -> calls_of r = [].
Proof.
  intros R F. inversion R as [|? ? s1 ? ? ? S R']; subst. cbn [step] in S. crack S. injection S as <- <-. now apply (off_runs _ _ _ R').
Qed.
Lemma unwatched_inside_start r0 s f e r1 e1 r2 s' : runs start r0 s -> runs s ((InUnwatch f, e) :: r1 ++ (Done, e1) :: r2) s' -> free_of (watches f) (r1 ++ r2) -> forall x, In x r2 -> called f x = false.
Proof. intros R. exact (unwatched_inside s f e r1 e1 r2 s' (runs_good _ _ _ R good_start)). Qed.
