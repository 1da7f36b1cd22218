(** The watcher goes on, stops and does not fail: proofs for FdWatchSpec.v. *)
From Verif Require Import Prelude FdWatch FdWatchSpec FdWatchProofs FdWatchCalls.
From Coq Require Import ZArith Sorting.Sorted.
Open Scope Z_scope.

(** * Descriptors that fit *)
Definition all_fit (s : state) : Prop := forall f, In f (keys (watched s)) -> fits f = true.
Lemma fit_step s a s' e : step s a = Next s' e -> valid a = true -> all_fit s -> all_fit s'.
Proof.
  unfold all_fit. intros S V A f.
  destruct a; cbn [step] in S; crack S; try discriminate S; injection S as <- <-; fields; rewrite ?notify_watched; fields; cbn [valid] in V; try apply A.
  all: try (rewrite keys_assign; intros [->|X]; [exact V|exact (A _ X)]). all: try (rewrite keys_erase; intros [X _]; exact (A _ X)). all: intros [].
Qed.
Lemma fit_runs r s : runs start r s -> (forall x, In x r -> valid (fst x) = true) -> all_fit s.
Proof.
  intros R. revert r s R. apply (runs_rev (fun r s => (forall x, In x r -> valid (fst x) = true) -> all_fit s)); [intros _ f []|]. intros r s a e s' R IH S V.
  apply (fit_step _ _ _ _ S); [apply (V (a, e)), in_app_iff; right; now left|apply IH; intros x I; apply V, in_app_iff; auto].
Qed.
Lemma fit_forallb s : all_fit s -> forallb fits (map fst (watched s)) = true.
Proof. intros A. apply forallb_forall. exact A. Qed.
Lemma never_undefined r s a : runs start r s -> (forall x, In x r -> valid (fst x) = true) -> step s a <> Undefined.
Proof.
  intros R V. pose proof (fit_forallb _ (fit_runs _ _ R V)) as F. destruct a; cbn [step]; rewrite ?F; intros E; crack E; discriminate E.
Qed.

(** * The thread is there *)
Definition starter (c : client) : bool := match c with Starting _ | Spawning _ => true | _ => false end.
Definition ender (c : client) : bool := match c with Inserted _ | Stopping | Joining | Clearing => true | _ => false end.
Record alive (s : state) : Prop := {
  a_start : running s = true -> place_of s = Off -> exists t, starter (clients s t) = true;
  a_stop : running s = false -> watched s = [] \/ exists t, ender (clients s t) = true
}.
Lemma keep (p : client -> bool) s t v : (p (clients s t) = true -> p v = true) -> (exists u, p (clients s u) = true) -> exists u, p (if N.eqb u t then v else clients s u) = true.
Proof. intros H (u & E). exists u. destruct (N.eqb_spec u t) as [->|]; auto. Qed.
Lemma mine (p : client -> bool) s t v : p v = true -> exists u, p (if N.eqb u t then v else clients s u) = true.
Proof. intros H. exists t. now rewrite N.eqb_refl. Qed.

Lemma notify_clients s : clients (notify s) = clients s. Proof. apply notify_same. Qed.
Lemma notify_running s : running (notify s) = running s. Proof. apply notify_same. Qed.
Lemma notify_joinable s : joinable (notify s) = joinable s. Proof. apply notify_same. Qed.

Lemma alive_step s a s' e : step s a = Next s' e -> pipe_made a = true -> alive s -> alive s'.
Proof.
  intros S V [A B].
  destruct a; cbn [step] in S; crack S; try discriminate S; injection S as <- <-; try discriminate V;
    (constructor; fields; rewrite ?notify_watched, ?notify_place, ?notify_clients, ?notify_running; fields; rewrite ?notify_clients in *; try discriminate; auto; try congruence).
  all: intros.
  all: repeat match goal with H : running _ = true |- _ => specialize (A H) | H : place_of _ = Off |- _ => specialize (A H) | H : running _ = false |- _ => specialize (B H) end.
  all: try (right; apply mine; reflexivity). all: try (apply mine; reflexivity).
  all: try (apply keep; [congruence|exact A]).
  all: try (apply keep; [match goal with H : clients _ _ = _ |- _ => rewrite H; discriminate end|exact A]).
  all: try (destruct B as [W|W]; [left; rewrite ?W; reflexivity|right]; first [exact W|apply keep; [match goal with H : clients _ _ = _ |- _ => rewrite H; discriminate end|exact W]]).
  all: apply keep; [match goal with H : clients _ _ = _ |- _ => rewrite H; discriminate end|apply A; auto].
Qed.
Lemma alive_runs r s : runs start r s -> (forall x, In x r -> pipe_made (fst x) = true) -> alive s.
Proof.
  intros R. revert r s R. apply (runs_rev (fun r s => (forall x, In x r -> pipe_made (fst x) = true) -> alive s)); [intros _; constructor; [discriminate|left; reflexivity]|].
  intros r s a e s' R IH S V. apply (alive_step _ _ _ _ S); [apply (V (a, e)), in_app_iff; right; now left|apply IH; intros x I; apply V, in_app_iff; auto].
Qed.

(** * The thread alone *)
Lemma watcher_deterministic s a b s1 e1 s2 e2 : watcher_act a = true -> watcher_act b = true -> step s a = Next s1 e1 -> step s b = Next s2 e2 -> a = b.
Proof.
  intros A B S1 S2. destruct a; try discriminate A; destruct b; try discriminate B; try reflexivity; cbn [step] in S1, S2; destruct (place_of s) as [| | | | | | |[|[? ?] ?]]; try discriminate S1; try discriminate S2.
Qed.

Definition alone (r : run) : Prop := forall x, In x r -> watcher_act (fst x) = true.
Lemma alone_cons a e r : watcher_act a = true -> alone r -> alone ((a, e) :: r).
Proof. intros A F x [<-|I]; auto. Qed.
Lemma alone_app r1 r2 : alone r1 -> alone r2 -> alone (r1 ++ r2).
Proof. intros A B x I. apply in_app_iff in I as [I|I]; auto. Qed.

(** What the thread does not change *)
Definition kept (s s' : state) : Prop := watched s' = watched s /\ running s' = running s /\ joinable s' = joinable s /\ clients s' = clients s /\ readable s' = readable s.
Lemma kept_refl s : kept s s. Proof. repeat split. Qed.
Lemma kept_trans s1 s2 s3 : kept s1 s2 -> kept s2 s3 -> kept s1 s3.
Proof. intros (A1 & A2 & A3 & A4 & A5) (B1 & B2 & B3 & B4 & B5). repeat split; congruence. Qed.
Lemma alone_step s a s' e : step s a = Next s' e -> watcher_act a = true -> kept s s'.
Proof.
  intros S W. destruct a; try discriminate W; cbn [step] in S; crack S; try discriminate S; injection S as <- <-; try (repeat split; fail).
Qed.
Lemma alone_kept s r s' : runs s r s' -> alone r -> kept s s'.
Proof.
  induction 1 as [s|s a s1 e r s' S R IH]; intros A; [apply kept_refl|]. apply (kept_trans _ s1); [apply (alone_step _ _ _ _ S), (A (a, e)); now left|apply IH; intros x I; apply A; now right].
Qed.

(** The callbacks are called, one after the other. *)
Lemma finish l s : place_of s = Calling l -> exists r s', runs s r s' /\ alone r /\ calls_of r = l /\ place_of s' = Top.
Proof.
  revert s. induction l as [|[f c] l IH]; intros s P.
  - exists [(Done, [])], (set_place Top s). split; [econstructor; [cbn [step]; now rewrite P|constructor]|]. split; [intros x [<-|[]]; reflexivity|]. split; reflexivity.
  - destruct (IH (set_place (Calling l) s) eq_refl) as (r & s' & R & A & C & T). exists ((Call, [Called f c]) :: r), s'.
    split; [econstructor; [cbn [step]; now rewrite P|exact R]|]. split; [now apply alone_cons|]. split; [|exact T]. change ((Call, [Called f c]) :: r) with ([(Call, [Called f c])] ++ r). rewrite calls_app, C. reflexivity.
Qed.
(** From the return of select() to the end of the round *)
Lemma end_round s l : ready_of (place_of s) = Some l -> running s = true -> exists r s', runs s r s' /\ alone r /\ place_of s' = Top /\
  (forall f c, In (f, c) (watched s) -> In f l -> In (f, c) (calls_of r)).
Proof.
  intros P RN.
  assert (exists r s', runs s r s' /\ alone r /\ calls_of r = [] /\ place_of s' = Collect l) as (r1 & s1 & R1 & A1 & C1 & P1).
  { destruct (place_of s) as [| | |l0|l0 n|l0|l0|l0] eqn:E; try discriminate P; injection P as ->.
    - exists [(Drain, []); (Check, [])], (set_place (Collect l) (set_place (Drained l) (if n then set_pipe (Some 0%N) s else s))).
      assert (running (if n then set_pipe (Some 0%N) s else s) = true) as RN' by (destruct n; exact RN).
      split; [|split; [intros x [<-|[<-|[]]]; reflexivity|split; reflexivity]]. econstructor; [cbn [step]; rewrite E; reflexivity|]. econstructor; [cbn [step]; fields; rewrite RN'; reflexivity|constructor].
    - exists [(Check, [])], (set_place (Collect l) s). split; [|split; [intros x [<-|[]]; reflexivity|split; reflexivity]]. econstructor; [cbn [step]; rewrite E, RN; reflexivity|constructor].
    - exists [], s. split; [constructor|]. split; [intros x []|]. split; [reflexivity|exact E]. }
  pose proof (alone_kept _ _ _ R1 A1) as (K & _).
  set (todo := List.filter (fun e => in_list (fst e) l) (watched s1)). destruct (finish todo (set_place (Calling todo) s1) eq_refl) as (r2 & s2 & R2 & A2 & C2 & T).
  exists (r1 ++ (Take, []) :: r2), s2. split; [apply runs_app; exists s1; split; [exact R1|]; econstructor; [cbn [step]; rewrite P1; reflexivity|exact R2]|].
  split; [apply alone_app; [exact A1|now apply alone_cons]|]. split; [exact T|]. intros f c I J. rewrite calls_app, C1. change ((Take, []) :: r2) with ([(Take, [])] ++ r2). rewrite calls_app, C2. cbn [calls_of flat_map app].
  apply filter_In. split; [now rewrite K|]. unfold in_list. apply existsb_exists. exists f. split; [exact J|apply Z.eqb_refl].
Qed.
Lemma wake s l : place_of s = Asleep l -> (full (pipe s) \/ exists f, In f l /\ readable s f = true) -> exists n, step s Wake = Next (set_place (Woken (List.filter (readable s) l) n) s) [].
Proof.
  intros P H. cbn [step]. rewrite P. destruct (List.filter (readable s) l) as [|g k] eqn:F.
  - destruct H as [H|(f & I & Y)]; [|exfalso; assert (In f []) as X by (rewrite <- F; now apply filter_In); destruct X].
    destruct (pipe s) as [n|]; [|destruct H]. cbn [full] in H. apply N.ltb_lt in H. rewrite H. eauto.
  - eauto.
Qed.
(** From the top of the loop *)
Lemma from_top s f c : place_of s = Top -> running s = true -> all_fit s -> In (f, c) (watched s) -> readable s f = true -> exists r s', runs s r s' /\ alone r /\ In (f, c) (calls_of r).
Proof.
  intros P RN F I Y. set (k := map fst (watched s)). set (s2 := set_place (Asleep k) (set_place Setup s)).
  assert (In f k) as J by (apply in_map_iff; now exists (f, c)).
  destruct (wake s2 k eq_refl) as (n & W); [right; now exists f|]. fields.
  destruct (end_round (set_place (Woken (List.filter (readable s) k) n) s2) _ eq_refl RN) as (r & s' & R & A & _ & C).
  exists ((Check, []) :: (SetUp, []) :: (Wake, []) :: r), s'. split.
  - econstructor; [cbn [step]; rewrite P, RN; reflexivity|]. econstructor; [cbn [step]; fields; rewrite (fit_forallb _ F); reflexivity|]. econstructor; [exact W|exact R].
  - split; [now repeat apply alone_cons|]. change ((Check, []) :: (SetUp, []) :: (Wake, []) :: r) with ([(Check, []); (SetUp, []); (Wake, [])] ++ r). rewrite calls_app. apply in_app_iff. right.
    apply C; [exact I|]. apply filter_In. split; assumption.
Qed.

Lemma notices r s f c : runs start r s -> (forall x, In x r -> pipe_made (fst x) = true) -> (forall x, In x r -> valid (fst x) = true) -> quiet s ->
  callback_for f r = Some c -> data f r = true -> exists r' s', runs s r' s' /\ alone r' /\ In (f, c) (calls_of r').
Proof.
  intros R PM V Q CB D. rewrite (runs_callback _ _ _ R) in CB. rewrite (runs_data _ _ _ R) in D. pose proof (runs_good _ _ _ R good_start) as G. pose proof (alive_runs _ _ R PM) as AL.
  pose proof (fit_runs _ _ R V) as F. apply find_in in CB; [|apply sorted_nodup, G].
  assert (running s = true) as RN. { destruct (running s) eqn:RN; [reflexivity|]. destruct (a_stop _ AL RN) as [W|(t & W)]; [rewrite W in CB; destruct CB|]. rewrite Q in W. discriminate. }
  assert (forall r1 s1, runs s r1 s1 -> alone r1 -> place_of s1 = Top -> exists r' s', runs s r' s' /\ alone r' /\ In (f, c) (calls_of r')) as K.
  { intros r1 s1 R1 A1 P1. destruct (alone_kept _ _ _ R1 A1) as (K1 & K2 & _ & _ & K5).
    destruct (from_top s1 f c P1) as (r2 & s2 & R2 & A2 & C2); [congruence|unfold all_fit; now rewrite K1|now rewrite K1|now rewrite K5|].
    exists (r1 ++ r2), s2. split; [apply runs_app; eauto|]. split; [now apply alone_app|]. rewrite calls_app. apply in_app_iff. auto. }
  assert (forall r1 s1 l, runs s r1 s1 -> alone r1 -> ready_of (place_of s1) = Some l -> exists r' s', runs s r' s' /\ alone r' /\ In (f, c) (calls_of r')) as K'.
  { intros r1 s1 l R1 A1 P1. destruct (alone_kept _ _ _ R1 A1) as (_ & K2 & _). destruct (end_round s1 l P1) as (r2 & s2 & R2 & A2 & T & _); [congruence|].
    apply (K (r1 ++ r2) s2); [apply runs_app; eauto|now apply alone_app|exact T]. }
  assert (runs s [] s) as R0 by constructor. assert (alone []) as A0 by intros x [].
  assert (forall l, place_of s = Asleep l -> In f l \/ full (pipe s)) as AS.
  { intros l P. destruct (g_woken _ G _ f P) as [X|[[X|(t & [X|(g & X)])]|(t & [X|X])]]; auto; [apply in_map_iff; now exists (f, c)|..]; rewrite Q in X; discriminate. }
  destruct (place_of s) as [| | |l|l n|l|l|l] eqn:P.
  - destruct (a_start _ AL RN P) as (t & W). rewrite Q in W. discriminate.
  - exact (K [] s R0 A0 P).
  - (* the set is made *)
    set (k := map fst (watched s)). assert (In f k) as J by (apply in_map_iff; now exists (f, c)).
    destruct (wake (set_place (Asleep k) s) k eq_refl) as (n & W); [right; now exists f|]. fields.
    apply (K' [(SetUp, []); (Wake, [])] (set_place (Woken (List.filter (readable s) k) n) (set_place (Asleep k) s)) (List.filter (readable s) k)); [|intros x [<-|[<-|[]]]; reflexivity|reflexivity].
    econstructor; [cbn [step]; rewrite P, (fit_forallb _ F); reflexivity|]. econstructor; [exact W|constructor].
  - destruct (wake s l P) as (n & W); [destruct (AS l eq_refl); [right; now exists f|auto]|].
    apply (K' [(Wake, [])] _ (List.filter (readable s) l) (runs_cons _ _ _ _ _ _ W (runs_nil _))); [intros x [<-|[]]; reflexivity|reflexivity].
  - apply (K' [] s l R0 A0). now rewrite P.
  - apply (K' [] s l R0 A0). now rewrite P.
  - apply (K' [] s l R0 A0). now rewrite P.
  - destruct (finish l s P) as (r1 & s1 & R1 & A1 & _ & T). exact (K r1 s1 R1 A1 T).
Qed.
