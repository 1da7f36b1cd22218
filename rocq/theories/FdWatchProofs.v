(** Proofs for FdWatchSpec.v. *)
From Verif Require Import Prelude FdWatch FdWatchSpec.
From Coq Require Import ZArith Sorting.Sorted.
Open Scope Z_scope.

Lemma runs_app s r1 r2 s' : runs s (r1 ++ r2) s' <-> exists s1, runs s r1 s1 /\ runs s1 r2 s'.
Proof.
  revert s. induction r1 as [|[a e] r1 IH]; cbn [app]; intros s.
  - split; [intros H; exists s; split; [constructor|exact H]|]. intros (s1 & H1 & H2). inversion H1; subst. exact H2.
  - split.
    + intros H. inversion H as [|? ? s1 ? ? ? S R]; subst. apply IH in R as (s2 & R1 & R2). exists s2. split; [econstructor; eauto|exact R2].
    + intros (s2 & H1 & H2). inversion H1 as [|? ? s1 ? ? ? S R]; subst. econstructor; [exact S|]. apply IH. eauto.
Qed.

(** * The map *)
Definition keys (m : fds) : list fd := map fst m.

Lemma in_assign m f c g d : In (g, d) (assign m f c) -> (g = f /\ d = c) \/ In (g, d) m.
Proof.
  induction m as [|[k e] m IH]; cbn [assign]; [intros [E|[]]; injection E; auto|].
  destruct (f <? k); [intros [E|I]; [injection E; auto|auto]|]. destruct (f =? k) eqn:E; [intros [X|I]; [injection X; auto|right; now right]|].
  intros [X|I]; [right; now left|]. destruct (IH I); [auto|right; now right].
Qed.
Lemma keys_assign m f c g : In g (keys (assign m f c)) <-> g = f \/ In g (keys m).
Proof.
  unfold keys. induction m as [|[k e] m IH]; cbn [assign map fst In]; [intuition|].
  destruct (f <? k) eqn:L; cbn [map fst In]; [intuition|]. destruct (f =? k) eqn:E; cbn [map fst In].
  - apply Z.eqb_eq in E. subst. intuition.
  - rewrite IH. intuition.
Qed.
Lemma keys_erase m f g : In g (keys (erase m f)) <-> In g (keys m) /\ g <> f.
Proof.
  unfold keys, erase. induction m as [|[k e] m IH]; cbn [List.filter map fst In]; [intuition|].
  destruct (k =? f) eqn:E; cbn [negb]; [apply Z.eqb_eq in E|apply Z.eqb_neq in E; cbn [map fst In]]; rewrite IH; [subst|]; intuition congruence.
Qed.
Definition find_cb (m : fds) (f : fd) : option callback := option_map snd (find (fun e => fst e =? f) m).
Lemma find_assign m f c g : NoDup (keys m) -> find_cb (assign m f c) g = if g =? f then Some c else find_cb m g.
Proof.
  unfold find_cb. induction m as [|[k e] m IH]; cbn [assign find fst]; intros ND.
  - rewrite Z.eqb_sym. now destruct (g =? f).
  - inversion ND as [|? ? NI ND']; subst. destruct (f <? k) eqn:L; cbn [find fst].
    + rewrite (Z.eqb_sym f g). now destruct (g =? f).
    + destruct (f =? k) eqn:E; cbn [find fst].
      * apply Z.eqb_eq in E. subst. rewrite (Z.eqb_sym k g). now destruct (g =? k).
      * apply Z.eqb_neq in E. destruct (k =? g) eqn:E2; [|exact (IH ND')]. apply Z.eqb_eq in E2. subst. destruct (Z.eqb_spec g f); [congruence|reflexivity].
Qed.
Lemma find_erase m f g : find_cb (erase m f) g = if g =? f then None else find_cb m g.
Proof.
  unfold find_cb, erase. induction m as [|[k e] m IH]; cbn [List.filter find fst]; [now destruct (g =? f)|].
  destruct (k =? f) eqn:E; cbn [negb find fst].
  - rewrite IH. apply Z.eqb_eq in E. subst. rewrite (Z.eqb_sym f g). now destruct (g =? f).
  - destruct (k =? g) eqn:E2; [|exact IH]. apply Z.eqb_eq in E2. subst. now rewrite E.
Qed.
Lemma find_in m f c : NoDup (keys m) -> (In (f, c) m <-> find_cb m f = Some c).
Proof.
  unfold find_cb. induction m as [|[k e] m IH]; cbn [find fst In]; intros ND; [split; [intros []|discriminate]|].
  inversion ND as [|? ? NI ND']; subst. destruct (Z.eqb_spec k f) as [->|N].
  - cbn [option_map snd]. split; [intros [E|I]; [now injection E as <-|]|intros E; injection E as <-; now left].
    exfalso. apply NI. apply in_map_iff. now exists (f, c).
  - rewrite <- IH by exact ND'. split; [intros [E|I]; [congruence|exact I]|auto].
Qed.
Lemma find_none m f : find_cb m f = None <-> ~ In f (keys m).
Proof.
  unfold find_cb, keys. induction m as [|[k e] m IH]; cbn [find map fst In]; [split; [intros _ []|reflexivity]|].
  destruct (Z.eqb_spec k f) as [->|N]; [split; [discriminate|intros X; exfalso; auto]|]. rewrite IH. intuition.
Qed.

(** Sorted *)
Definition sorted (m : fds) : Prop := StronglySorted Z.lt (keys m).
Lemma sorted_nodup m : sorted m -> NoDup (keys m).
Proof.
  unfold sorted. generalize (keys m). induction 1 as [|x l S IH F]; constructor; [|exact IH]. intros I. rewrite Forall_forall in F. apply F in I. lia.
Qed.
Lemma sorted_assign m f c : sorted m -> sorted (assign m f c).
Proof.
  unfold sorted. induction m as [|[k e] m IH]; cbn [assign keys map fst]; intros S; [constructor; constructor|].
  inversion S as [|? ? S' F]; subst. destruct (Z.ltb_spec f k) as [L|L].
  - constructor; [exact S|]. constructor; [exact L|]. eapply Forall_impl; [|exact F]. intros a HH. cbn [fst]. lia.
  - destruct (Z.eqb_spec f k) as [->|N]; [exact S|]. constructor; [exact (IH S')|].
    rewrite Forall_forall in *. intros g I. apply keys_assign in I as [->|I]; [cbn [fst]; lia|exact (F _ I)].
Qed.
Lemma sorted_filter m p : sorted m -> sorted (List.filter p m).
Proof.
  unfold sorted, keys. induction m as [|[k e] m IH]; cbn [List.filter map fst]; intros S; [constructor|]. inversion S as [|? ? S' F]; subst.
  destruct (p (k, e)); [|exact (IH S')]. cbn [map fst]. constructor; [exact (IH S')|]. rewrite Forall_forall in *. intros g I.
  apply F. apply in_map_iff in I as (x & <- & I). apply filter_In in I as [I _]. now apply in_map.
Qed.

(** * The invariant of all runs *)
Ltac crack H := repeat match type of H with
  | context [match ?x with _ => _ end] => destruct x eqn:?; try discriminate H
  end.
Ltac fields := cbn [watched running pipe stray joinable place_of clients readable set_watched set_running set_pipe set_stray set_joinable set_place set_client set_readable] in *.

Definition full (p : option N) : Prop := match p with Some n => (0 < n)%N | None => False end.
Lemma notify_same s : watched (notify s) = watched s /\ running (notify s) = running s /\ joinable (notify s) = joinable s /\ place_of (notify s) = place_of s /\
  clients (notify s) = clients s /\ readable (notify s) = readable s.
Proof. unfold notify. destruct (pipe s); repeat split. Qed.
Lemma notify_full s : pipe s <> None -> full (pipe (notify s)).
Proof. unfold notify. destruct (pipe s) eqn:E; [|congruence]. intros _. fields. unfold full. lia. Qed.
Lemma notify_some s : pipe s <> None -> pipe (notify s) <> None.
Proof. intros H. apply notify_full in H. destruct (pipe (notify s)); [discriminate|destruct H]. Qed.

(** Somebody wakes the watcher *)
Definition noise (s : state) : Prop := full (pipe s) \/ exists t, clients s t = Stopping \/ exists f, clients s t = Spawning f.

Record good (s : state) : Prop := {
  g_sorted : sorted (watched s);
  g_todo : forall l, place_of s = Calling l -> sorted l;
  g_pipe : place_of s <> Off -> pipe s <> None;
  g_spawning : forall t f, clients s t = Spawning f -> pipe s <> None;
  g_woken : forall l f, place_of s = Asleep l -> In f (keys (watched s)) -> In f l \/ noise s \/ exists t, clients s t = Inserted f \/ clients s t = Notifying f;
  g_stop : (place_of s = Setup \/ exists l, place_of s = Asleep l) -> running s = false -> noise s;
  g_thread : joinable s = false -> place_of s = Off
}.

Lemma other s t v u : u <> t -> clients (set_client t v s) u = clients s u.
Proof. intros N. fields. destruct (N.eqb_spec u t); [congruence|reflexivity]. Qed.
Lemma this s t v : clients (set_client t v s) t = v.
Proof. fields. now rewrite N.eqb_refl. Qed.

(** A client changes from [clients s t] to [v] and the pipe stays *)
Lemma noise_client s s' t v : pipe s' = pipe s -> clients s' = clients (set_client t v s) ->
  (clients s t <> Stopping) -> (forall f, clients s t <> Spawning f) -> noise s -> noise s'.
Proof.
  intros P C N1 N2 [F|(u & H)]; [left; now rewrite P|right]. exists u. rewrite C, other; [exact H|]. intros ->. destruct H as [H|(f & H)]; [now apply N1|now apply (N2 f)].
Qed.
Lemma noise_same s s' : pipe s' = pipe s -> clients s' = clients s -> noise s -> noise s'.
Proof. intros P C. unfold noise. now rewrite P, C. Qed.

Lemma good_start : good start.
Proof. constructor; cbn; try discriminate; try contradiction; auto; [constructor|intros [|(? & ?)]; discriminate]. Qed.

Lemma woken_client s s' t v : good s -> place_of s' = place_of s -> watched s' = watched s -> clients s' = clients (set_client t v s) ->
  (noise s -> noise s') -> (forall f, clients s t = Inserted f \/ clients s t = Notifying f -> noise s' \/ v = Inserted f \/ v = Notifying f) ->
  forall l f, place_of s' = Asleep l -> In f (keys (watched s')) -> In f l \/ noise s' \/ exists t, clients s' t = Inserted f \/ clients s' t = Notifying f.
Proof.
  intros G P W C NS K l f A I. rewrite P in A. rewrite W in I. destruct (g_woken _ G _ _ A I) as [H|[H|(u & H)]]; auto.
  destruct (N.eqb_spec u t) as [->|N].
  - destruct (K f H) as [X|X]; [auto|]. right. right. exists t. now rewrite C, this.
  - right. right. exists u. now rewrite C, other.
Qed.

Lemma good_step s a s' e : step s a = Next s' e -> good s -> good s'.
Proof.
  intros S G. destruct a; cbn [step] in S.
  - (* Watch *) destruct (clients s t) eqn:C; try discriminate. destruct (mutex_free s) eqn:M; [|discriminate]. injection S as <- <-.
    assert (noise s -> noise (set_client t (Inserted f) (set_watched (assign (watched s) f c) s))) as NS by (apply (noise_client _ _ t (Inserted f)); auto; rewrite C; discriminate).
    constructor; fields; try solve [apply G].
    + apply sorted_assign, G.
    + intros u g H. destruct (N.eqb u t); [discriminate|]. exact (g_spawning _ G _ _ H).
    + intros l g A I. apply keys_assign in I as [->|I]; [right; right; exists t; rewrite N.eqb_refl; auto|].
      destruct (g_woken _ G _ _ A I) as [H|[H|(u & H)]]; auto. right. right. exists u. destruct (N.eqb_spec u t) as [->|]; [|exact H]. rewrite C in H. destruct H; discriminate.
    + intros A R. apply NS. exact (g_stop _ G A R).
  - (* Exchange *) destruct (clients s t) eqn:C; try discriminate. destruct (running s) eqn:R; injection S as <- <-.
    + assert (noise s -> noise (set_client t (Notifying f) s)) as NS by (apply (noise_client _ _ t (Notifying f)); auto; rewrite C; discriminate).
      constructor; fields; try solve [apply G].
      * intros u g H. destruct (N.eqb u t); [discriminate|]. exact (g_spawning _ G _ _ H).
      * intros l g A I. refine (woken_client s (set_client t (Notifying f) s) t (Notifying f) G eq_refl eq_refl eq_refl NS _ l g A I). rewrite C. intros g' [X|X]; [injection X as ->; auto|discriminate].
      * intros A R'. apply NS. exact (g_stop _ G A R').
    + assert (noise s -> noise (set_client t (Starting f) (set_running true s))) as NS by (apply (noise_client _ _ t (Starting f)); auto; rewrite C; discriminate).
      constructor; fields; try solve [apply G]; try discriminate.
      * intros u g H. destruct (N.eqb u t); [discriminate|]. exact (g_spawning _ G _ _ H).
      * intros l g A I. refine (woken_client s (set_client t (Starting f) (set_running true s)) t (Starting f) G eq_refl eq_refl eq_refl NS _ l g A I). intros g' _. left. apply NS, (g_stop _ G); [right; eauto|exact R].
  - (* Pipe *) destruct (clients s t) eqn:C; try discriminate. destruct ok; injection S as <- <-.
    + assert (noise (set_client t (Spawning f) (set_pipe (Some 0%N) s))) as NS by (right; exists t; rewrite this; eauto).
      constructor; fields; try solve [apply G]; auto; discriminate.
    + assert (noise s -> noise (set_client t Free s)) as NS by (apply (noise_client _ _ t Free); auto; rewrite C; discriminate).
      constructor; fields; try solve [apply G].
      * intros u g H. destruct (N.eqb u t); [discriminate|]. exact (g_spawning _ G _ _ H).
      * intros l g A I. refine (woken_client s (set_client t Free s) t Free G eq_refl eq_refl eq_refl NS _ l g A I). rewrite C. intros g' [X|X]; discriminate.
      * intros A R'. apply NS. exact (g_stop _ G A R').
  - (* Spawn *) destruct (clients s t) eqn:C; try discriminate. destruct (joinable s) eqn:J; [discriminate|]. injection S as <- <-.
    pose proof (g_spawning _ G _ _ C) as P.
    constructor; fields; try solve [apply G]; try discriminate; auto.
    intros [|(? & ?)]; discriminate.
  - (* Notify *) destruct (notify_same s) as (E1 & E2 & E3 & E4 & E5 & E6). destruct (clients s t) eqn:C; try discriminate; injection S as <- <-.
    + assert (place_of s <> Off -> noise (set_client t Free (notify s))) as NS by (intros P; left; fields; apply notify_full, G, P).
      constructor; fields; rewrite ?E1, ?E2, ?E3, ?E4, ?E5; try solve [apply G].
      * intros P. apply notify_some, G, P.
      * intros u g H. destruct (N.eqb u t); [discriminate|]. apply notify_some. exact (g_spawning _ G _ _ H).
      * intros l g A _. right. left. apply NS. congruence.
      * intros A _. apply NS. destruct A as [A|(l & A)]; congruence.
    + assert (place_of s <> Off -> noise (set_client t Joining (notify s))) as NS by (intros P; left; fields; apply notify_full, G, P).
      constructor; fields; rewrite ?E1, ?E2, ?E3, ?E4, ?E5; try solve [apply G].
      * intros P. apply notify_some, G, P.
      * intros u g H. destruct (N.eqb u t); [discriminate|]. apply notify_some. exact (g_spawning _ G _ _ H).
      * intros l g A _. right. left. apply NS. congruence.
      * intros A _. apply NS. destruct A as [A|(l & A)]; congruence.
  - (* Unwatch *) destruct (clients s t) eqn:C; try discriminate. destruct (mutex_free s); [|discriminate]. injection S as <- <-.
    constructor; fields; try solve [apply G].
    + apply sorted_filter, G.
    + intros l g A I. apply keys_erase in I as [I _]. exact (g_woken _ G _ _ A I).
  - (* Stop *) destruct (clients s t) eqn:C; try discriminate. destruct (running s) eqn:R; injection S as <- <-; [|exact G].
    assert (noise (set_client t Stopping (set_running false s))) as NS by (right; exists t; rewrite this; auto).
    constructor; fields; try solve [apply G]; auto. intros u g H. destruct (N.eqb u t); [discriminate|]. exact (g_spawning _ G _ _ H).
  - (* Join *) destruct (clients s t) eqn:C; try discriminate. destruct (joinable s) eqn:J; [|discriminate]. destruct (place_of s) eqn:P; try discriminate. injection S as <- <-.
    constructor; fields; rewrite ?P; try solve [apply G]; try discriminate; try congruence.
    + intros u g H. destruct (N.eqb u t); [discriminate|]. exact (g_spawning _ G _ _ H).
    + intros [|(? & ?)]; discriminate.
  - (* Clear *) destruct (clients s t) eqn:C; try discriminate. destruct (mutex_free s); [|discriminate]. injection S as <- <-.
    assert (noise s -> noise (set_client t Free (set_watched [] s))) as NS by (apply (noise_client _ _ t Free); auto; rewrite C; discriminate).
    constructor; fields; try solve [apply G]; try contradiction.
    + constructor.
    + intros u g H. destruct (N.eqb u t); [discriminate|]. exact (g_spawning _ G _ _ H).
    + intros A R. apply NS. exact (g_stop _ G A R).
  - (* Check *) assert (pipe s <> None -> forall p, (p <> Setup \/ running s = true) -> (forall l, p <> Asleep l) -> (forall l, p <> Calling l) -> (joinable s = false -> p = Off) -> good (set_place p s)) as K.
    { intros P p K1 K2 K3 K4. constructor; fields; try solve [apply G]; auto.
      - intros l E. destruct (K3 _ E).
      - intros l f E. destruct (K2 _ E).
      - intros [E|(l & E)]; [|destruct (K2 _ E)]. destruct K1; congruence. }
    destruct (place_of s) eqn:P; try discriminate; injection S as <- <-; (apply K; [apply G; congruence|..]); destruct (running s); try (left; discriminate); auto; try discriminate; intros J; apply (g_thread _ G) in J; congruence.
  - (* SetUp *) destruct (place_of s) eqn:P; try discriminate. destruct (forallb _ _); [|discriminate]. injection S as <- <-.
    constructor; fields; try solve [apply G]; try discriminate.
    + intros _. apply G. congruence.
    + intros l f E I. injection E as <-. left. exact I.
    + intros _ R. apply (noise_same s); auto. apply (g_stop _ G); auto.
    + intros J. apply (g_thread _ G) in J. congruence.
  - (* Wake *) destruct (place_of s) eqn:P; try discriminate.
    assert (exists r n, s' = set_place (Woken r n) s) as (r & n & ->) by (crack S; injection S as <- <-; eauto).
    constructor; fields; try solve [apply G]; try discriminate.
    + intros _. apply G. congruence.
    + intros [|(? & ?)]; discriminate.
    + intros J. apply (g_thread _ G) in J. congruence.
  - (* Fail *) destruct (place_of s) eqn:P; try discriminate. injection S as <- <-.
    constructor; fields; try solve [apply G]; try discriminate.
    + intros _. apply G. congruence.
    + intros [|(? & ?)]; discriminate.
    + intros J. apply (g_thread _ G) in J. congruence.
  - (* Drain *) destruct (place_of s) eqn:P; try discriminate. injection S as <- <-.
    assert (pipe s <> None) as PN by (apply G; congruence).
    constructor; destruct notified; fields; try solve [apply G]; try discriminate; auto.
    all: try (intros [|(? & ?)]; discriminate). all: intros J; apply (g_thread _ G) in J; congruence.
  - (* Take *) destruct (place_of s) eqn:P; try discriminate. injection S as <- <-.
    constructor; fields; try solve [apply G]; try discriminate.
    + intros l E. injection E as <-. apply sorted_filter, G.
    + intros _. apply G. congruence.
    + intros [|(? & ?)]; discriminate.
    + intros J. apply (g_thread _ G) in J. congruence.
  - (* Call *) destruct (place_of s) as [| | | | | | |[|[f c] l]] eqn:P; try discriminate. injection S as <- <-.
    constructor; fields; try solve [apply G]; try discriminate.
    + intros l' E. injection E as <-. pose proof (g_todo _ G _ P) as T. now inversion T.
    + intros _. apply G. congruence.
    + intros [|(? & ?)]; discriminate.
    + intros J. apply (g_thread _ G) in J. congruence.
  - (* Done *) destruct (place_of s) as [| | | | | | |[|[f c] l]] eqn:P; try discriminate. injection S as <- <-.
    constructor; fields; try solve [apply G]; try discriminate.
    + intros _. apply G. congruence.
    + intros [|(? & ?)]; discriminate.
    + intros J. apply (g_thread _ G) in J. congruence.
  - (* InWatch *) destruct (place_of s) eqn:P; try discriminate. destruct (running s) eqn:R; [|discriminate]. injection S as <- <-.
    destruct (notify_same (set_watched (assign (watched s) f c) s)) as (E1 & E2 & E3 & E4 & E5 & E6). fields.
    assert (pipe s <> None) as PN by (apply G; congruence).
    constructor; rewrite ?E1, ?E2, ?E3, ?E4, ?E5; fields; rewrite ?P; try discriminate.
    + apply sorted_assign, G.
    + intros l E. injection E as <-. exact (g_todo _ G _ P).
    + intros _. apply notify_some. exact PN.
    + intros _ _ _. apply notify_some. exact PN.
    + intros [|(? & ?)]; discriminate.
    + intros J. apply (g_thread _ G) in J. congruence.
  - (* InUnwatch *) destruct (place_of s) eqn:P; try discriminate. injection S as <- <-.
    constructor; fields; rewrite ?P; try solve [apply G]; try discriminate.
    + apply sorted_filter, G.
    + intros l E. injection E as <-. exact (g_todo _ G _ P).
    + intros _. apply G. congruence.
    + intros [|(? & ?)]; discriminate.
    + intros J. apply (g_thread _ G) in J. congruence.
  - (* InStop *) destruct (place_of s) eqn:P; try discriminate. destruct (running s) eqn:R; [|discriminate]. injection S as <- <-.
    destruct (notify_same (set_running false s)) as (E1 & E2 & E3 & E4 & E5 & E6). fields.
    assert (pipe s <> None) as PN by (apply G; congruence).
    constructor; fields; rewrite ?E1, ?E2, ?E3, ?E4, ?E5; rewrite ?P; try discriminate.
    + constructor.
    + intros l E. injection E as <-. exact (g_todo _ G _ P).
    + intros _. apply notify_some. exact PN.
    + intros _ _ _. apply notify_some. exact PN.
    + intros [|(? & ?)]; discriminate.
    + intros J. apply (g_thread _ G) in J. congruence.
  - injection S as <- <-. constructor; fields; try solve [apply G].
Qed.

Lemma runs_good s r s' : runs s r s' -> good s -> good s'.
Proof. induction 1 as [s|s a s1 e r s' S R IH]; auto. intros G. exact (IH (good_step _ _ _ _ S G)). Qed.
