(** Proofs about the test channel, the threads and the end of the process. *)
From Coq Require Import String.
From Verif Require Import Prelude Table Address PhyModel PhyModelSpec PhyModelProofs PhyModelTopology TestCommand TestCommandProofs Server ServerSpec ServerProofs ServerClients.
Open Scope N_scope.

Section TestClients.
Context {C : Type}.
Variable standard : C.
Notation state := (state C).
Notation obs := (obs C).
Variables (config : option (list C)) (binds : nat -> bool) (sniffer : bool) (prefix : list N).
Notation hist := (history standard config binds sniffer prefix).

(** ** One test client at a time *)

Lemma texts_app c (a b : list obs) : texts c (a ++ b) = texts c a ++ texts c b.
Proof. induction a as [|x a IH]; cbn; [reflexivity|]. destruct x; auto. destruct (c0 =? c); cbn; now rewrite IH. Qed.

(** What a step does to the channel and says. *)
Inductive channel_step (s s' : state) (o : list obs) : Prop :=
| cs_quiet : open s' = open s -> watched s' = watched s -> responder s' = responder s -> next s <= next s' ->
    (forall c t, ~ In (Sent c t) o) -> (forall c, ~ In (Accepted c 0) o) -> channel_step s s' o
| cs_answer name : open s' = open s -> watched s' = watched s -> responder s' = responder s -> next s <= next s' ->
    said s name o -> channel_step s s' o
| cs_leave c : In c (watched s) -> open s' = false -> watched s' = set_erase c (watched s) -> responder s' = responder s ->
    next s' = next s -> o = [] -> channel_step s s' o
| cs_refuse : open s = true -> open s' = true -> watched s' = watched s -> responder s' = responder s -> next s' = next s + 1 ->
    o = [Accepted (next s) 0; Sent (next s) Broken] -> channel_step s s' o
| cs_serve : open s = false -> open s' = true -> watched s' = next s :: watched s -> responder s' = Some (next s) -> next s' = next s + 1 ->
    o = [Accepted (next s) 0; Sent (next s) Greeting] -> channel_step s s' o.
Lemma frame_channel (s s' : state) name o : frame s s' -> said s name o -> channel_step s s' o.
Proof. intros F S. eapply cs_answer; [apply F|apply F|apply F|apply F|exact S]. Qed.
Ltac quiet := apply cs_quiet; [reflexivity|reflexivity|reflexivity|cbn; lia|cbn; intuition discriminate|cbn; intuition discriminate].

(** Only server 0 is for test clients. *)
Definition only_test (s : state) : Prop := map offers (servers s) = services standard config.
Lemma test_is_0 (s : state) i v : only_test s -> nth_error (servers s) i = Some v -> (offers v = Test <-> i = 0%nat).
Proof.
  intros O V. apply nth_offers in V. rewrite O in V. unfold services in V.
  destruct i as [|[|[|i]]]; cbn in V; try (injection V as V; rewrite <- V; split; [discriminate|discriminate]).
  - injection V as <-. tauto.
  - split; [|discriminate]. intros E. exfalso. rewrite E in V. apply nth_error_In in V.
    destruct config as [[|c l]|]; cbn in V; try (destruct V as [V|[]]; discriminate).
    destruct V as [V|V]; [discriminate|]. apply in_map_iff in V as (x & V & _). discriminate.
Qed.
Lemma hist_only l s o : hist l s o -> only_test s.
Proof. intros H. apply run_ledger in H as [_ H]. rewrite start_offers in H. exact H. Qed.

Lemma servers_kept l s o : hist l s o -> map offers (servers s) = services standard config.
Proof. exact (hist_only l s o). Qed.
(** Server 0 is for test clients, 1 and 2 for the link layer; then one server for
    every configuration that was given, or one with the default configuration. *)
Lemma configuration_of_server k :
  nth_error (services standard config) 0 = Some Test /\
  nth_error (services standard config) 1 = Some (Link BrEdr) /\ nth_error (services standard config) 2 = Some (Link LowEnergy) /\
  configured (services standard config) (3 + k) =
    match config with
    | Some (c :: l) => nth_error (c :: l) k
    | _ => if Nat.eqb k 0 then Some standard else None
    end.
Proof.
  do 3 (split; [reflexivity|]). unfold configured, services. cbn [app nth_error Nat.add].
  destruct config as [[|c l]|].
  - destruct k as [|[|k]]; reflexivity.
  - rewrite nth_error_map. destruct (nth_error (c :: l) k); reflexivity.
  - destruct k as [|[|k]]; reflexivity.
Qed.
Lemma step_channel (s s' : state) e o : only_test s -> step_event s e = Next s' o -> channel_step s s' o.
Proof.
  intros OT S. destruct e as [ok reach|j ok|j| |x name args|x| |q|ok reach]; cbn [step_event] in S.
  - unfold do_main in S. destruct (todo s) as [|[j|name args|] q] eqn:T; [discriminate| | |].
    + injection S as <- <-. quiet.
    + destruct (acting s).
      * apply command_frame in S as [F Q]. destruct F. cbn in *. eapply cs_answer; eauto.
      * destruct (_ || _); [discriminate|]. injection S as <- <-. quiet.
    + destruct (acting s).
      * destruct (step _ _); [|discriminate]. injection S as <- <-. quiet.
      * destruct (_ || _); [discriminate|]. injection S as <- <-. quiet.
  - unfold do_connect in S. destruct (adding s) eqn:A; [discriminate|].
    destruct (nth_error (servers s) j) as [v|] eqn:V; [|discriminate].
    destruct (listening v) eqn:LI; [|discriminate]. pose proof (test_is_0 _ _ _ OT V) as TZ.
    destruct (offers v) as [|ty|cf] eqn:O; cbn [open set_servers set_next] in S.
    + assert (j = 0%nat) as -> by now apply TZ.
      destruct (open s) eqn:OP.
      * destruct ok; [|discriminate]. injection S as <- <-. apply cs_refuse; auto.
      * destruct (_ || _); [discriminate|]. destruct ok; [|discriminate]. injection S as <- <-. apply cs_serve; auto.
    + destruct (_ || _); [discriminate|]. injection S as <- <-.
      apply cs_quiet; try reflexivity; [cbn; lia|cbn; intuition discriminate|].
      intros c [K|[]]. injection K as _ ->. assert (@Link C ty = Test) by (apply TZ; reflexivity). discriminate.
    + injection S as <- <-. apply cs_quiet; try reflexivity; [cbn; lia|cbn; intuition discriminate|].
      intros c [K|[]]. injection K as _ ->. assert (@Hci C cf = Test) by (apply TZ; reflexivity). discriminate.
  - destruct (adding s); [discriminate|]. destruct (nth_error (servers s) j); [|discriminate].
    destruct (listening s0); [|discriminate]. injection S as <- <-. quiet.
  - unfold do_added, add_link in S. destruct (adding s) as [[[j x] ty]|] eqn:A; [|discriminate].
    destruct (step _ _); [|discriminate]. injection S as <- <-. quiet.
  - unfold do_request in S. destruct (adding s) eqn:A; [discriminate|]. destruct (mem x (watched s)); [|discriminate].
    injection S as <- <-. quiet.
  - unfold do_leave in S. destruct (adding s) eqn:A; [discriminate|]. destruct (mem x (watched s)) eqn:M; [|discriminate].
    injection S as <- <-. apply (cs_leave _ _ _ x); auto. now apply mem_spec.
  - unfold do_begin in S. destruct (running s) eqn:R; [discriminate|]. destruct (queue s) as [|t q] eqn:Q; [discriminate|].
    destruct (conflict C t s); [discriminate|]. injection S as <- <-. quiet.
  - unfold do_tick in S. destruct (running s) eqn:R; [discriminate|]. destruct (ticking (clock s)); [discriminate|].
    destruct (forallb _ q); [|discriminate]. destruct (conflict C _ s); [discriminate|]. injection S as <- <-. quiet.
  - unfold do_finish in S. destruct (running s) as [t|] eqn:R; [|discriminate].
    destruct t as [x j cf|x name args|e| |q].
    + destruct (step _ _); [|discriminate]. injection S as <- <-. quiet.
    + destruct (ends name).
      { cbn [ended set_tasks] in S. destruct (ended s); [discriminate|]. injection S as <- <-. quiet. }
      apply command_frame in S as [F Q]. destruct F. cbn in *. eapply cs_answer; eauto.
    + cbn [sim set_tasks queue] in S. destruct (mem e _).
      { unfold remove in S. destruct (step _ _); [|discriminate]. injection S as <- <-. quiet. }
      injection S as <- <-. quiet.
    + destruct (step _ _); [|discriminate]. injection S as <- <-. quiet.
    + injection S as <- <-. quiet.
Qed.

(** The channel is open exactly while one client is served, and the answers go to
    this client. *)
Definition one_client (s : state) : Prop :=
  (open s = false /\ watched s = []) \/ (exists c, open s = true /\ watched s = [c] /\ responder s = Some c).
Lemma one_step (s s' : state) o : one_client s -> channel_step s s' o -> one_client s'.
Proof.
  intros I S. destruct S as [E1 E2 E3 _ _ _|name E1 E2 E3 _ _|c M E1 E2 E3 _ _|E0 E1 E2 E3 _ _|E0 E1 E2 E3 _ _]; unfold one_client in *; rewrite ?E1, ?E2, ?E3; try exact I.
  - left. split; [reflexivity|]. destruct I as [[_ W]|(x & _ & W & _)]; rewrite W in *; [destruct M|].
    destruct M as [->|[]]. cbn. now rewrite N.eqb_refl.
  - destruct I as [[W _]|(x & W & W2 & W3)]; [congruence|]. right. eauto.
  - destruct I as [[_ W]|(x & W & _)]; [|congruence]. right. exists (next s). rewrite W. auto.
Qed.
Lemma one_history l s o : hist l s o -> one_client s.
Proof.
  revert l s o. apply (hist_ind standard config binds sniffer prefix (fun _ s _ => one_client s)).
  - now left.
  - intros l s o e s' o' H I S. eapply one_step; [exact I|]. eapply step_channel; [|exact S]. eapply hist_only; eauto.
Qed.
Lemma one_at_a_time l s o c d : hist l s o -> In c (watched s) -> In d (watched s) -> c = d.
Proof. intros H A B. destruct (one_history _ _ _ H) as [[_ W]|(x & _ & W & _)]; rewrite W in *; [destruct A|]. destruct A as [<-|[]], B as [<-|[]]. reflexivity. Qed.

(** Who is served. *)
Lemma test_accept l s o ok s' o' : hist l s o -> step_event s (Connect 0 ok) = Next s' o' ->
  (watched s = [] -> o' = [Accepted (next s) 0; Sent (next s) Greeting] /\ watched s' = [next s]) /\
  (watched s <> [] -> o' = [Accepted (next s) 0; Sent (next s) Broken] /\ watched s' = watched s) /\
  sim s' = sim s /\ owners s' = owners s /\ queue s' = queue s.
Proof.
  intros H S. pose proof (hist_only _ _ _ H) as OT. pose proof (one_history _ _ _ H) as I.
  cbn [step_event] in S. unfold do_connect in S. destruct (adding s) eqn:A; [discriminate|].
  destruct (nth_error (servers s) 0) as [v|] eqn:V; [|discriminate].
  destruct (listening v) eqn:LI; [|discriminate]. pose proof (test_is_0 _ _ _ OT V) as TZ.
  assert (offers v = Test) as O by now apply TZ. rewrite O in S. cbn [open set_servers set_next] in S.
  destruct I as [[OP W]|(x & OP & W & R)]; rewrite OP in S.
  - destruct (_ || _); [discriminate|]. destruct ok; [|discriminate]. injection S as <- <-. cbn. rewrite W. split; [auto|]. split; [intros X; now elim X|auto].
  - destruct ok; [|discriminate]. injection S as <- <-. cbn. rewrite W. split; [discriminate|]. split; [auto|auto].
Qed.

(** What a client reads in all. *)
Definition tidy (s : state) (o : list obs) : Prop := forall c,
  (texts c o = [] /\ responder s <> Some c /\ ~ In (Accepted c 0) o) \/
  (texts c o = [Broken] /\ responder s <> Some c /\ c < next s) \/
  (exists r, texts c o = Greeting :: r /\ forallb is_answer r = true /\ c < next s).
Lemma texts_said (s : state) name o c : said s name o ->
  (texts c o = [] \/ (responder s = Some c /\ forallb is_answer (texts c o) = true)) /\ ~ In (Accepted c 0) o.
Proof.
  intros [->|(x & r & R & _ & ->)]; [now split; [left|intros []]|]. split.
  - destruct (N.eqb_spec x c) as [->|NE].
    + right. split; [exact R|]. clear. induction r as [|y r IH]; cbn; [reflexivity|]. rewrite N.eqb_refl. exact IH.
    + left. apply N.eqb_neq in NE. clear -NE. induction r as [|y r IH]; cbn; [reflexivity|]. now rewrite NE.
  - rewrite in_map_iff. intros (y & Y & _). discriminate.
Qed.
Lemma texts_none c (o : list obs) : (forall t, ~ In (Sent c t) o) -> texts c o = [].
Proof.
  induction o as [|x o IH]; intros H; cbn; [reflexivity|].
  assert (texts c o = []) as E by (apply IH; intros t K; apply (H t); now right).
  destruct x; auto. destruct (N.eqb_spec c0 c) as [->|]; [|exact E]. exfalso. apply (H t). now left.
Qed.
Lemma tidy_step (s s' : state) o o' : tidy s o -> channel_step s s' o' -> tidy s' (o ++ o').
Proof.
  intros I S c. specialize (I c). rewrite texts_app.
  destruct S as [E1 E2 E3 E4 E5 E6|name E1 E2 E3 E4 E5|x M E1 E2 E3 E4 E5|E0 E1 E2 E3 E4 E5|E0 E1 E2 E3 E4 E5].
  - rewrite (texts_none c o') by (intros t; apply E5). rewrite app_nil_r, E3.
    destruct I as [(A & B & D)|[(A & B & D)|(r & A & B & D)]].
    + left. repeat split; auto. intros K. apply in_app_iff in K as [K|K]; [auto|now apply E6 in K].
    + right. left. repeat split; auto. lia.
    + right. right. exists r. repeat split; auto. lia.
  - destruct (texts_said _ _ _ c E5) as [[K|[K1 K2]] NA]; rewrite ?K, E3.
    + rewrite app_nil_r. destruct I as [(A & B & D)|[(A & B & D)|(r & A & B & D)]].
      * left. repeat split; auto. intros X. apply in_app_iff in X as [X|X]; auto.
      * right. left. repeat split; auto. lia.
      * right. right. exists r. repeat split; auto. lia.
    + destruct I as [(A & B & D)|[(A & B & D)|(r & A & B & D)]]; [now elim B|now elim B|].
      right. right. exists (r ++ texts c o'). rewrite A. split; [reflexivity|]. rewrite forallb_app, B, K2. split; [reflexivity|lia].
  - subst o'. cbn. rewrite !app_nil_r, E3, E4. exact I.
  - subst o'. cbn. rewrite E3, E4. destruct (N.eqb_spec (next s) c) as [<-|NE].
    + destruct I as [(A & B & D)|[(A & B & D)|(r & A & B & D)]]; [|lia|lia].
      right. left. rewrite A. repeat split; auto. lia.
    + rewrite app_nil_r. destruct I as [(A & B & D)|[(A & B & D)|(r & A & B & D)]].
      * left. repeat split; auto. intros X. apply in_app_iff in X as [X|[X|[X|[]]]]; [auto|congruence|discriminate].
      * right. left. repeat split; auto. lia.
      * right. right. exists r. repeat split; auto. lia.
  - subst o'. cbn. rewrite E3, E4. destruct (N.eqb_spec (next s) c) as [<-|NE].
    + destruct I as [(A & B & D)|[(A & B & D)|(r & A & B & D)]]; [|lia|lia].
      right. right. exists []. rewrite A. repeat split. lia.
    + rewrite app_nil_r. destruct I as [(A & B & D)|[(A & B & D)|(r & A & B & D)]].
      * left. repeat split; auto; [congruence|]. intros X. apply in_app_iff in X as [X|[X|[X|[]]]]; [auto|congruence|discriminate].
      * right. left. repeat split; auto; [congruence|lia].
      * right. right. exists r. repeat split; auto. lia.
Qed.
Lemma tidy_history l s o : hist l s o -> tidy s o.
Proof.
  revert l s o. apply (hist_ind standard config binds sniffer prefix (fun _ s o => tidy s o)).
  - intros c. left. repeat split; [discriminate|intros []].
  - intros l s o e s' o' H I S. eapply tidy_step; [exact I|]. eapply step_channel; [|exact S]. eapply hist_only; eauto.
Qed.
Lemma test_reads l s o c : hist l s o -> In (Accepted c 0) o ->
  texts c o = [Broken] \/ exists r, texts c o = Greeting :: r /\ forallb is_answer r = true.
Proof.
  intros H A. destruct (tidy_history _ _ _ H c) as [(_ & _ & K)|[(K & _)|(r & K1 & K2 & _)]]; [now elim K|auto|eauto].
Qed.

(** ** Answers go to the client that asked *)

Definition asks (s : state) : Prop :=
  (todo s <> [] -> responder s = None) /\
  forall c n a, In (Command c n a) (tasks s) -> responder s = Some c.
Lemma commands_left_false (s : state) : commands_left s = false -> forall c n a, ~ In (Command c n a) (tasks s).
Proof.
  unfold commands_left, tasks. intros H c n a K.
  assert (existsb is_command (match running s with Some t => [t] | None => [] end ++ queue s) = true) as X; [|congruence].
  apply existsb_exists. exists (Command c n a). split; [exact K|reflexivity].
Qed.
Lemma step_asks (s s' : state) e o : only_test s -> one_client s -> asks s -> patient s e = true -> step_event s e = Next s' o -> asks s'.
Proof.
  intros OT ONE [A1 A2] P S.
  assert (SAME : todo s' = todo s \/ (exists a, todo s = a :: todo s') -> responder s' = responder s ->
    (forall c n a, In (Command c n a) (tasks s') -> In (Command c n a) (tasks s)) -> asks s').
  { intros E1 E2 E3. split.
    - intros NE. rewrite E2. apply A1. destruct E1 as [<-|(a & E1)]; [exact NE|rewrite E1; discriminate].
    - intros c n a K. rewrite E2. eapply A2, E3, K. }
  pose proof (main_same _ _ _ _ S) as MS.
  destruct e as [ok reach|j ok|j| |x name args|x| |q|ok reach]; cbn [step_event] in S.
  - unfold do_main in S. destruct (todo s) as [|[j|name args|] q] eqn:T; [discriminate| | |].
    + injection S as <- <-. apply SAME; auto.
    + destruct (acting s).
      * apply command_frame in S as [F Q]. apply SAME; [exact MS|exact (f_responder _ _ F)|].
        unfold tasks. intros c n a. rewrite (f_running _ _ F). destruct (f_queue _ _ F) as [k ->]. rewrite app_assoc, in_app_iff.
        intros [K|K]; [exact K|]. apply repeat_spec in K. discriminate.
      * destruct (_ || _); [discriminate|]. injection S as <- <-. apply SAME; auto.
    + destruct (acting s).
      * destruct (step _ _); [|discriminate]. injection S as <- <-. apply SAME; auto.
      * destruct (_ || _); [discriminate|]. injection S as <- <-. apply SAME; auto.
  - unfold do_connect in S. cbn in P. destruct (adding s) eqn:A; [discriminate|].
    destruct (nth_error (servers s) j) as [v|] eqn:V; [|discriminate].
    destruct (listening v) eqn:LI; [|discriminate].
    destruct (offers v) as [|ty|cf] eqn:O; cbn [open set_servers set_next] in S.
    + destruct (todo s) eqn:T; [|discriminate]. destruct (open s) eqn:OP.
      * destruct ok; [|discriminate]. injection S as <- <-. apply SAME; auto.
      * match type of S with context [if ?x then Race else _] => destruct x; [discriminate|] end. destruct ok; [|discriminate]. injection S as <- <-.
        cbn in P. apply negb_true_iff in P. split; [cbn; now rewrite T|].
        intros c n a K. now apply (commands_left_false s P) in K.
    + destruct (_ || _); [discriminate|]. injection S as <- <-. apply SAME; auto.
    + injection S as <- <-. apply SAME; auto. unfold tasks. cbn. intros c n a. rewrite app_assoc, in_app_iff.
      intros [K|[K|[]]]; [exact K|discriminate].
  - destruct (adding s); [discriminate|]. destruct (nth_error (servers s) j); [|discriminate].
    destruct (listening s0); [|discriminate]. injection S as <- <-. split; assumption.
  - unfold do_added, add_link in S. destruct (adding s) as [[[j x] ty]|] eqn:A; [|discriminate].
    destruct (step _ _); [|discriminate]. injection S as <- <-. apply SAME; auto.
  - unfold do_request in S. destruct (adding s) eqn:A; [discriminate|]. destruct (mem x (watched s)) eqn:M; [|discriminate].
    injection S as <- <-. split; [exact A1|]. intros c n a. unfold tasks. cbn. rewrite app_assoc, in_app_iff.
    intros [K|[K|[]]]; [eapply A2, K|]. injection K as -> _ _. apply mem_spec in M.
    destruct ONE as [[_ W]|(y & _ & W & R)]; rewrite W in M; [destruct M|]. destruct M as [<-|[]]. exact R.
  - unfold do_leave in S. destruct (adding s) eqn:A; [discriminate|]. destruct (mem x (watched s)) eqn:M; [|discriminate].
    injection S as <- <-. apply SAME; auto.
  - unfold do_begin in S. destruct (running s) eqn:R; [discriminate|]. destruct (queue s) as [|t q] eqn:Q; [discriminate|].
    destruct (conflict C t s); [discriminate|]. injection S as <- <-. apply SAME; auto. unfold tasks. cbn. rewrite R, Q. auto.
  - unfold do_tick in S. destruct (running s) eqn:R; [discriminate|]. destruct (ticking (clock s)); [discriminate|].
    destruct (forallb _ q); [|discriminate]. destruct (conflict C _ s); [discriminate|]. injection S as <- <-. apply SAME; auto.
    unfold tasks. cbn. rewrite R. intros c n a [K|K]; [discriminate|exact K].
  - unfold do_finish in S. destruct (running s) as [t|] eqn:R; [|discriminate].
    destruct t as [x j cf|x name args|e| |q].
    + destruct (step _ _); [|discriminate]. injection S as <- <-. apply SAME; auto. unfold tasks. cbn. rewrite R. now right.
    + destruct (ends name).
      { cbn [ended set_tasks] in S. destruct (ended s); [discriminate|]. injection S as <- <-. apply SAME; auto. unfold tasks. cbn. rewrite R. now right. }
      apply command_frame in S as [F Q]. apply SAME; [exact MS|exact (f_responder _ _ F)|].
      unfold tasks. intros c n a. rewrite (f_running _ _ F). destruct (f_queue _ _ F) as [k ->]. cbn. rewrite R, in_app_iff.
      intros [K|K]; [now right|]. apply repeat_spec in K. discriminate.
    + cbn [sim set_tasks queue] in S. destruct (mem e _).
      { unfold remove in S. destruct (step _ _); [|discriminate]. injection S as <- <-. apply SAME; auto. unfold tasks. cbn. rewrite R.
        intros c n a K. apply filter_In in K as [K _]. now right. }
      injection S as <- <-. apply SAME; auto. unfold tasks. cbn. rewrite R. now right.
    + destruct (step _ _); [|discriminate]. injection S as <- <-. apply SAME; auto. unfold tasks. cbn. rewrite R. now right.
    + injection S as <- <-. apply SAME; auto. unfold tasks. cbn. rewrite R. intros c n a K. apply in_app_iff in K as [K|K]; [now right|].
      apply in_map_iff in K as (y & K & _). discriminate.
Qed.

(** Induction over histories in which every event meets a condition. *)
Lemma always_app f (s : state) a b : always f s (a ++ b) = true ->
  always f s a = true /\ match run_events s a with Next t _ => always f t b = true | _ => True end.
Proof.
  revert s. induction a as [|e a IH]; intros s H; cbn in *; [auto|].
  apply andb_true_iff in H as [H1 H2]. rewrite H1. destruct (step_event s e) as [t o| | | |]; auto.
  apply IH in H2 as [H2 H3]. split; [exact H2|]. destruct (run_events t a); auto.
Qed.
Lemma always_ind f (P : state -> Prop) :
  P (start standard config binds sniffer prefix) ->
  (forall l s o e s' o', hist l s o -> P s -> f s e = true -> step_event s e = Next s' o' -> P s') ->
  forall l s o, hist l s o -> always f (start standard config binds sniffer prefix) l = true -> P s.
Proof.
  intros B S l s o H. revert l s o H.
  apply (hist_ind standard config binds sniffer prefix (fun l s _ => always f (start standard config binds sniffer prefix) l = true -> P s)); [auto|].
  intros l s o e s' o' H IH E A. apply always_app in A as [A1 A2]. unfold history in H. rewrite H in A2. cbn in A2.
  apply andb_true_iff in A2 as [A2 _]. eapply S; eauto.
Qed.
Lemma asks_history l s o : hist l s o -> always patient (start standard config binds sniffer prefix) l = true -> asks s.
Proof.
  apply always_ind.
  - split; [reflexivity|]. intros c n a [].
  - intros l0 s0 o0 e s' o' H I P S. eapply step_asks; eauto; [eapply hist_only; eauto|eapply one_history; eauto].
Qed.
Lemma answer_to_asker l s o c name args ok reach s' o' x t : hist l s o -> always patient (start standard config binds sniffer prefix) l = true ->
  running s = Some (Command c name args) -> step_event s (Finish ok reach) = Next s' o' -> In (Sent x t) o' -> x = c.
Proof.
  intros H P R S K. destruct (asks_history _ _ _ H P) as [_ A].
  assert (responder s = Some c) as RC by (apply (A c name args); unfold tasks; rewrite R; now left).
  cbn in S. unfold do_finish in S. rewrite R in S. destruct (ends name).
  - cbn in S. destruct (ended s); [discriminate|]. injection S as <- <-. destruct K as [K|[]]. discriminate.
  - apply command_frame in S as [_ [->|(y & r & RY & _ & ->)]]; [destruct K|].
    apply in_map_iff in K as (z & [= <- _] & _). cbn in RY. congruence.
Qed.
Lemma main_silent l s o ok reach s' o' : hist l s o -> always patient (start standard config binds sniffer prefix) l = true ->
  step_event s (Main ok reach) = Next s' o' -> o' = [].
Proof.
  intros H P S. destruct (asks_history _ _ _ H P) as [A _].
  cbn in S. unfold do_main in S. destruct (todo s) as [|[j|name args|] q] eqn:T; [discriminate| | |].
  - now injection S as <- <-.
  - destruct (acting s).
    + apply command_frame in S as [_ [->|(y & r & RY & _ & ->)]]; [reflexivity|]. cbn in RY. rewrite A in RY; discriminate.
    + destruct (_ || _); [discriminate|]. now injection S as <- <-.
  - destruct (acting s); [destruct (step _ _); [|discriminate]|destruct (_ || _); [discriminate|]]; now injection S as <- <-.
Qed.
(** A command that is answered while its client is there is answered to it. *)
Lemma answers_arrive l s o c name args ok reach s' o' : hist l s o -> always patient (start standard config binds sniffer prefix) l = true ->
  running s = Some (Command c name args) -> In c (watched s) -> ends name = false -> step_event s (Finish ok reach) = Next s' o' ->
  exists e r, handle name args = Ok e r /\ o' = map (fun x => Sent c (Answer name x)) r.
Proof.
  intros H P R W E S. destruct (asks_history _ _ _ H P) as [_ A].
  assert (responder s = Some c) as RC by (apply (A c name args); unfold tasks; rewrite R; now left).
  cbn in S. unfold do_finish in S. rewrite R, E in S. unfold command in S.
  destruct (handle name args) as [e r| |]; try discriminate. exists e, r. split; [reflexivity|].
  destruct (effects C reach (set_tasks C (queue s) None s) e) as [t p| | | |] eqn:EF; try discriminate.
  apply effects_frame in EF as [F _].
  destruct (respond C ok t (map (Answer name) r)) as [z|] eqn:Z; [|discriminate]. injection S as <- <-.
  unfold respond in Z. rewrite (f_responder _ _ F), (f_watched _ _ F) in Z. cbn [responder watched set_tasks] in Z. rewrite RC in Z.
  apply mem_spec in W. rewrite W in Z. destruct r as [|x r]; cbn [map] in *; [now injection Z as <-|].
  destruct ok; [|discriminate]. injection Z as <-. cbn. now rewrite map_map.
Qed.

(** ** The threads *)

Definition simple (f : effect) : bool :=
  match f with ETopology Reset | ETopology (RemoveDevice _) => false | ETopology _ | ETimer _ => true | _ => false end.
Definition pure (mt : model * timer) (f : effect) : model * timer :=
  match f with
  | ETopology o => (match step (fst mt) o with Some m => m | None => fst mt end, snd mt)
  | ETimer o => (fst mt, timer_step (snd mt) o)
  | _ => mt
  end.
Definition pure_call (mt : model * timer) (a : action) : model * timer :=
  match a with Call n args => match handle n args with Ok l _ => fold_left pure l mt | _ => mt end | _ => mt end.
Lemma effects_simple reach l : forall (s s' : state) o, forallb simple l = true -> effects C reach s l = Next s' o ->
  (sim s', clock s') = fold_left pure l (sim s, clock s) /\ owners s' = owners s /\ queue s' = queue s.
Proof.
  induction l as [|f l IH]; cbn; intros s s' o F H; [injection H as <- <-; auto|].
  apply andb_true_iff in F as [F1 F2]. destruct (effect_step C reach s f) as [t p| | | |] eqn:E; try discriminate.
  apply IH in H as (-> & -> & ->); [|exact F2]. clear IH. unfold effect_step in E.
  destruct f as [x|x|h x ty|d]; try discriminate F1.
  - cbn [pure fst snd]. destruct x; try discriminate F1; (destruct (step (sim s) _); [|discriminate]); injection E as <- <-; auto.
  - injection E as <- <-. auto.
Qed.

Definition prep (k : nat) : model * timer := fold_left pure_call (firstn k topology) (init prefix, timer_init).
Lemma prep_ticking k : (k <= 7)%nat -> ticking (snd (prep k)) = [].
Proof. intros H. do 8 (destruct k as [|k]; [vm_compute; reflexivity|]). lia. Qed.
Lemma prep_done : fst (prep 8) = first_topology prefix.
Proof. vm_compute. reflexivity. Qed.

Definition rest : list action := map Listen (seq 1 (List.length (services standard config) - 1)) ++ (if sniffer then [Sniff] else []).
Notation all := (all_actions standard config sniffer).
Lemma all_split : all = Listen 0 :: topology ++ rest.
Proof. reflexivity. Qed.
Lemma services_length : (4 <= List.length (services standard config))%nat.
Proof. unfold services. rewrite app_length. destruct config as [[|]|]; cbn; lia. Qed.
Lemma rest_head : exists r, rest = Listen 1 :: r.
Proof.
  unfold rest. pose proof services_length. destruct (List.length (services standard config) - 1)%nat eqn:E; [lia|]. cbn. eauto.
Qed.
Lemma nth_rest j a : nth_error rest j = Some a -> a = Listen (S j) \/ (a = Sniff /\ sniffer = true).
Proof.
  unfold rest. set (m := (List.length _ - 1)%nat). intros H. destruct (Nat.lt_ge_cases j m) as [L|L].
  - left. rewrite nth_error_app1 in H by (rewrite map_length, seq_length; exact L).
    rewrite nth_error_map in H. rewrite nth_error_nth' with (d := 0%nat) in H by (rewrite seq_length; exact L).
    rewrite seq_nth in H by exact L. cbn in H. injection H as <-. reflexivity.
  - right. rewrite nth_error_app2 in H by (rewrite map_length, seq_length; exact L).
    apply nth_error_In in H. destruct sniffer; [destruct H as [<-|[]]; auto|destruct H].
Qed.
Lemma skipn_nth {A} (l : list A) : forall k a r, skipn k l = a :: r -> nth_error l k = Some a /\ r = skipn (S k) l.
Proof.
  induction l as [|x l IH]; intros [|k] a r H; cbn in H; try discriminate.
  - injection H as -> ->. auto.
  - apply IH in H as [H ->]. auto.
Qed.
Lemma late_nth k a : (9 <= k)%nat -> nth_error all k = Some a -> a = Listen (k - 8) \/ (a = Sniff /\ sniffer = true).
Proof.
  intros K H. rewrite all_split in H. do 9 (destruct k as [|k]; [lia|]). cbn in H.
  apply nth_rest in H. now replace (S (S (S (S (S (S (S (S (S k)))))))) - 8)%nat with (S k) by lia.
Qed.
Lemma call_nth k a : (k < 8)%nat -> nth_error all (S k) = Some a ->
  nth_error topology k = Some a /\ exists n args l r, a = Call n args /\ handle n args = Ok l r /\ forallb simple l = true.
Proof.
  intros K H. rewrite all_split in H. cbn [nth_error] in H. rewrite nth_error_app1 in H by (cbn; lia). split; [exact H|].
  do 8 (destruct k as [|k]; [injection H as <-; do 4 eexists; (split; [reflexivity|]); split; vm_compute; reflexivity|]). lia.
Qed.

Record early (s : state) (k : nat) : Prop := {
  e_todo : todo s = skipn k all; e_adding : adding s = None;
  e_queue : queue s = []; e_watched : watched s = []; e_owners : owners s = [];
  e_prep : (sim s, clock s) = prep (k - 1);
  e_running : running s = None \/ (k = 9%nat /\ running s = Some (Tick []));
  e_acting : acting s = true -> (1 <= k <= 8)%nat;
  e_deaf : forall i v, nth_error (servers s) i = Some v -> i <> 0%nat -> listening v = false }.
Definition stage (s : state) : Prop :=
  (exists k, (k <= 9)%nat /\ early s k) \/
  (exists k, (10 <= k)%nat /\ todo s = skipn k all /\ (sniffer = false -> acting s = false)).

Lemma acting_same (s s' : state) e o : step_event s e = Next s' o ->
  (exists ok reach, e = Main ok reach) \/ (acting s' = acting s /\ todo s' = todo s).
Proof.
  intros S. destruct e as [ok reach|j ok|j| |x name args|x| |q|ok reach]; cbn [step_event] in S; [left; eauto|right..].
  - unfold do_connect in S. destruct (adding s) eqn:A; [discriminate|].
    destruct (nth_error (servers s) j) as [v|] eqn:V; [|discriminate]. destruct (listening v) eqn:LI; [|discriminate].
    destruct (offers v) as [|ty|cf] eqn:O; cbn [open set_servers set_next] in S;
    repeat match type of S with context [if ?x then _ else _] => destruct x; try discriminate end; injection S as <- <-; split; reflexivity.
  - destruct (adding s); [discriminate|]. destruct (nth_error (servers s) j); [|discriminate].
    destruct (listening s0); [|discriminate]. injection S as <- <-. split; reflexivity.
  - unfold do_added, add_link in S. destruct (adding s) as [[[j x] ty]|] eqn:A; [|discriminate].
    destruct (step _ _); [|discriminate]. injection S as <- <-. split; reflexivity.
  - unfold do_request in S. destruct (adding s) eqn:A; [discriminate|]. destruct (mem x (watched s)); [|discriminate].
    injection S as <- <-. split; reflexivity.
  - unfold do_leave in S. destruct (adding s) eqn:A; [discriminate|]. destruct (mem x (watched s)) eqn:M; [|discriminate].
    injection S as <- <-. split; reflexivity.
  - unfold do_begin in S. destruct (running s) eqn:R; [discriminate|]. destruct (queue s) as [|t q] eqn:Q; [discriminate|].
    destruct (conflict C t s); [discriminate|]. injection S as <- <-. split; reflexivity.
  - unfold do_tick in S. destruct (running s) eqn:R; [discriminate|]. destruct (ticking (clock s)); [discriminate|].
    destruct (forallb _ q); [|discriminate]. destruct (conflict C _ s); [discriminate|]. injection S as <- <-. split; reflexivity.
  - unfold do_finish in S. destruct (running s) as [t|] eqn:R; [|discriminate].
    destruct t as [x j cf|x name args|e| |q].
    + destruct (step _ _); [|discriminate]. injection S as <- <-. split; reflexivity.
    + destruct (ends name).
      { cbn [ended set_tasks] in S. destruct (ended s); [discriminate|]. injection S as <- <-. split; reflexivity. }
      apply command_frame in S as [F Q]. split; [exact (f_acting _ _ F)|exact (f_todo _ _ F)].
    + cbn [sim set_tasks queue] in S. destruct (mem e _).
      { unfold remove in S. destruct (step _ _); [|discriminate]. injection S as <- <-. split; reflexivity. }
      injection S as <- <-. split; reflexivity.
    + destruct (step _ _); [|discriminate]. injection S as <- <-. split; reflexivity.
    + injection S as <- <-. split; reflexivity.
Qed.

Lemma skip_some k : (k <= 9)%nat -> exists a r, skipn k all = a :: r /\ nth_error all k = Some a /\ r = skipn (S k) all.
Proof.
  intros K. destruct (skipn k all) as [|a r] eqn:E.
  - exfalso. assert (List.length all <= k)%nat as L.
    { rewrite <- (firstn_skipn k all), E, app_nil_r. rewrite firstn_length. lia. }
    rewrite all_split in L. destruct rest_head as [q Q]. rewrite Q in L. cbn in L. lia.
  - exists a, r. split; [reflexivity|]. now apply skipn_nth.
Qed.

Lemma step_stage (s s' : state) e o : only_test s -> stage s -> patient s e = true -> step_event s e = Next s' o -> stage s'.
Proof.
  intros OT [(k & K & E)|(k & K & T & AC)] P S.
  2:{ right. destruct (acting_same _ _ _ _ S) as [(ok & reach & ->)|[A1 A2]]; [|exists k; rewrite A2; repeat split; auto; rewrite A1; exact AC].
      cbn in S. unfold do_main in S. rewrite T in S. destruct (skipn k all) as [|a r] eqn:SK; [discriminate|].
      apply skipn_nth in SK as SK2. destruct SK2 as [NA ->]. apply late_nth in NA; [|lia].
      destruct NA as [-> | [-> SN]].
      - injection S as <- <-. exists (S k). cbn [todo acting set_servers set_main]. repeat split; auto.
      - destruct (acting s); [destruct (step _ _); [|discriminate]; injection S as <- <-; exists (S k); cbn; repeat split; auto|].
        match type of S with context [if ?x then Race else _] => destruct x; [discriminate|] end.
        injection S as <- <-. exists k. cbn [todo set_main acting]. rewrite SK. repeat split; auto. congruence. }
  destruct (skip_some k K) as (a & r & SK & NA & ->).
  pose proof (e_todo _ _ E) as T. rewrite SK in T.
  destruct e as [ok reach|j ok|j| |x name args|x| |q|ok reach]; cbn [step_event] in S.
  - unfold do_main in S. rewrite T in S.
    destruct (Nat.eq_dec k 0) as [->|K0]; [|destruct (Nat.eq_dec k 9) as [->|K9]].
    + rewrite all_split in NA. injection NA as <-. injection S as <- <-. left. exists 1%nat. split; [lia|].
      destruct E. constructor; cbn [todo adding queue watched owners sim clock running acting servers set_servers set_main]; auto.
      * destruct e_running0 as [R|[R _]]; [auto|lia].
      * discriminate.
      * intros i v V NE. change (nth_error (at_server C (listen C true) 0 (servers s)) i = Some v) in V. rewrite nth_at_server in V. destruct i; [congruence|]. exact (e_deaf0 _ _ V NE).
    + apply late_nth in NA; [|lia]. destruct NA as [-> | [-> SN]].
      * injection S as <- <-. right. exists 10%nat. cbn [todo acting set_servers set_main]. repeat split; auto.
      * exfalso. destruct rest_head as [q Q]. rewrite all_split in SK. change (rest = Sniff :: skipn 10 all) in SK. rewrite Q in SK. discriminate.
    + destruct k as [|k]; [congruence|]. apply call_nth in NA as [NT (n & args & l & rr & -> & HA & SI)]; [|lia].
      destruct (e_running _ _ E) as [R|[R _]]; [|lia].
      destruct (acting s) eqn:A.
      * apply command_split in S as (l2 & r2 & HA2 & EF & _). rewrite HA in HA2. injection HA2 as <- <-.
        pose proof (effects_frame _ _ _ _ _ EF) as [F _].
        apply effects_simple in EF as (E1 & E2 & E3); [|exact SI]. cbn [sim clock owners queue set_main] in *.
        left. exists (S (S k)). split; [lia|]. destruct E. constructor.
        -- rewrite (f_todo _ _ F). reflexivity.
        -- rewrite (f_adding _ _ F). assumption.
        -- now rewrite E3.
        -- rewrite (f_watched _ _ F). assumption.
        -- now rewrite E2.
        -- rewrite E1, e_prep0. unfold prep. cbn [Nat.sub]. rewrite Nat.sub_0_r.
           assert (firstn (S k) topology = firstn k topology ++ [Call n args]) as ->.
           { apply nth_error_split in NT as (l1 & l2 & NT & LE). rewrite NT, <- LE. clear.
             rewrite firstn_app, firstn_all2 by lia. rewrite firstn_app, firstn_all.
             replace (S (List.length l1) - List.length l1)%nat with 1%nat by lia. rewrite Nat.sub_diag. cbn. now rewrite app_nil_r. }
           rewrite fold_left_app. cbn [fold_left pure_call]. now rewrite HA.
        -- left. rewrite (f_running _ _ F). exact R.
        -- rewrite (f_acting _ _ F). discriminate.
        -- rewrite (f_servers _ _ F). assumption.
      * match type of S with context [if ?x then Race else _] => destruct x; [discriminate|] end.
        injection S as <- <-. left. exists (S k). split; [exact K|]. destruct E. constructor; cbn [todo adding queue watched owners sim clock running acting servers set_main]; auto.
        intros _. lia.
  - exfalso. unfold do_connect in S. cbn in P. rewrite (e_adding _ _ E) in S.
    destruct (nth_error (servers s) j) as [v|] eqn:V; [|discriminate]. destruct (listening v) eqn:LI; [|discriminate].
    destruct (Nat.eq_dec j 0) as [->|J]; [|pose proof (e_deaf _ _ E _ _ V J); congruence].
    assert (offers v = Test) as O by now apply (test_is_0 _ _ _ OT V). rewrite O, T in P. discriminate.
  - rewrite (e_adding _ _ E) in S. destruct (nth_error (servers s) j); [|discriminate].
    destruct (listening s0); [|discriminate]. injection S as <- <-. left. eauto.
  - exfalso. unfold do_added in S. rewrite (e_adding _ _ E) in S. discriminate.
  - exfalso. unfold do_request in S. rewrite (e_adding _ _ E), (e_watched _ _ E) in S. discriminate.
  - exfalso. unfold do_leave in S. rewrite (e_adding _ _ E), (e_watched _ _ E) in S. discriminate.
  - exfalso. unfold do_begin in S. rewrite (e_queue _ _ E) in S. destruct (running s); discriminate.
  - unfold do_tick in S. destruct (running s) eqn:R; [discriminate|]. destruct (ticking (clock s)) eqn:TK; [discriminate|].
    rewrite (e_owners _ _ E) in S. destruct q as [|d q]; [|discriminate]. cbn [forallb] in S.
    destruct (conflict C _ s); [discriminate|]. injection S as <- <-. left. exists k. split; [exact K|].
    assert (k = 9%nat) as ->.
    { destruct (Nat.eq_dec k 9) as [->|]; [reflexivity|]. exfalso. pose proof (prep_ticking (k - 1) ltac:(lia)) as PT.
      rewrite <- (e_prep _ _ E) in PT. cbn in PT. congruence. }
    destruct E. constructor; cbn [todo adding queue watched owners sim clock running acting servers set_tasks]; auto.
  - unfold do_finish in S. destruct (e_running _ _ E) as [R|[-> R]]; rewrite R in S; [discriminate|].
    injection S as <- <-. left. exists 9%nat. split; [lia|].
    destruct E. constructor; cbn [todo adding queue watched owners sim clock running acting servers set_tasks map]; auto.
    rewrite e_queue0. reflexivity.
Qed.
Lemma stage_history l s o : hist l s o -> always patient (start standard config binds sniffer prefix) l = true -> stage s.
Proof.
  apply always_ind.
  - left. exists 0%nat. split; [lia|]. constructor; cbn [todo adding queue watched owners sim clock running acting servers start]; auto.
    + unfold all_actions. now rewrite length_open.
    + discriminate.
    + intros i v V _. now apply open_all_nth in V as [V _].
  - intros l0 s0 o0 e s' o' H I P S. eapply step_stage; eauto. eapply hist_only; eauto.
Qed.
(** When the main thread is about to open the other servers, the simulation is the
    documented one. *)
Lemma first_is l s o r : hist l s o -> always patient (start standard config binds sniffer prefix) l = true ->
  todo s = Listen 1 :: r -> sim s = first_topology prefix /\ owners s = [] /\ ticking (clock s) = [(1, 5)].
Proof.
  intros H P T. destruct (stage_history _ _ _ H P) as [(k & K & E)|(k & K & E & _)].
  - rewrite (e_todo _ _ E) in T. apply skipn_nth in T as [T _].
    assert (k = 9)%nat as ->.
    { destruct (Nat.eq_dec k 9) as [->|]; [reflexivity|]. exfalso. destruct k as [|k]; [rewrite all_split in T; discriminate|].
      apply call_nth in T as [_ (nm & a & x & y & T & _)]; [discriminate|lia]. }
    pose proof (e_prep _ _ E) as PR. split; [|split; [exact (e_owners _ _ E)|]].
    + change (sim s) with (fst (sim s, clock s)). rewrite PR. exact prep_done.
    + change (clock s) with (snd (sim s, clock s)). rewrite PR. vm_compute. reflexivity.
  - exfalso. rewrite E in T. apply skipn_nth in T as [T _]. apply late_nth in T; [|lia]. destruct T as [T|[T _]]; [|discriminate].
    injection T as T. lia.
Qed.

Lemma no_adding_step (s s' : state) e o : adding s = None -> no_link s e = true -> step_event s e = Next s' o -> adding s' = None.
Proof.
  intros A P S. destruct e as [ok reach|j ok|j| |x name args|x| |q|ok reach]; cbn [step_event] in S.
  - unfold do_main in S. destruct (todo s) as [|[j|name args|] q] eqn:T; [discriminate| | |].
    + now injection S as <- <-.
    + destruct (acting s); [apply command_frame in S as [F Q]; now rewrite (f_adding _ _ F)|].
      destruct (_ || _); [discriminate|]. now injection S as <- <-.
    + destruct (acting s); [destruct (step _ _); [|discriminate]|destruct (_ || _); [discriminate|]]; now injection S as <- <-.
  - unfold do_connect in S. cbn in P. rewrite A in S. destruct (nth_error (servers s) j) as [v|]; [|discriminate].
    destruct (listening v); [|discriminate]. destruct (offers v); [|discriminate|].
    + cbn [open set_servers set_next] in S. repeat match type of S with context [if ?x then _ else _] => destruct x; try discriminate end; now injection S as <- <-.
    + now injection S as <- <-.
  - rewrite A in S. destruct (nth_error (servers s) j); [|discriminate]. destruct (listening s0); [|discriminate]. now injection S as <- <-.
  - unfold do_added in S. rewrite A in S. discriminate.
  - unfold do_request in S. rewrite A in S. destruct (mem x (watched s)); [|discriminate]. now injection S as <- <-.
  - unfold do_leave in S. rewrite A in S. destruct (mem x (watched s)); [|discriminate]. now injection S as <- <-.
  - unfold do_begin in S. destruct (running s) eqn:R; [discriminate|]. destruct (queue s) as [|t q] eqn:Q; [discriminate|].
    destruct (conflict C t s); [discriminate|]. now injection S as <- <-.
  - unfold do_tick in S. destruct (running s) eqn:R; [discriminate|]. destruct (ticking (clock s)); [discriminate|].
    destruct (forallb _ q); [|discriminate]. destruct (conflict C _ s); [discriminate|]. now injection S as <- <-.
  - unfold do_finish in S. destruct (running s) as [t|] eqn:R; [|discriminate].
    destruct t as [x j cf|x name args|e| |q].
    + destruct (step _ _); [|discriminate]. now injection S as <- <-.
    + destruct (ends name).
      { cbn [ended set_tasks] in S. destruct (ended s); [discriminate|]. now injection S as <- <-. }
      apply command_frame in S as [F Q]. now rewrite (f_adding _ _ F).
    + cbn [sim set_tasks queue] in S. destruct (mem e _); [unfold remove in S; destruct (step _ _); [|discriminate]|]; now injection S as <- <-.
    + destruct (step _ _); [|discriminate]. now injection S as <- <-.
    + now injection S as <- <-.
Qed.
Lemma no_adding l s o : hist l s o -> always no_link (start standard config binds sniffer prefix) l = true -> adding s = None.
Proof. apply (always_ind no_link (fun s => adding s = None)); [reflexivity|]. intros. eapply no_adding_step; eauto. Qed.

Lemma command_no_race ok reach (t : state) n a : command C ok reach t n a <> Race.
Proof.
  unfold command. destruct (handle n a) as [k r| |]; try discriminate.
  assert (EF : forall k (t : state), effects C reach t k <> Race).
  { clear. induction k as [|f k IH]; intros t; cbn; [discriminate|].
    destruct (effect_step C reach t f) eqn:E; try discriminate; [apply IH|]. exfalso.
    unfold effect_step, remove, add_link in E. destruct f as [p|p|h p ty|d]; [|discriminate| |discriminate].
    - destruct p; try (destruct (step _ _)); discriminate.
    - destruct reach; [|discriminate]. destruct (step _ _); discriminate. }
  specialize (EF k t). destruct (effects C reach t k); try discriminate; [|now elim EF].
  destruct (respond _ _ _ _); discriminate.
Qed.
Lemma no_race l s o e : sniffer = false -> hist l s o ->
  always patient (start standard config binds sniffer prefix) l = true -> always no_link (start standard config binds sniffer prefix) l = true ->
  patient s e = true -> no_link s e = true -> step_event s e <> Race.
Proof.
  intros SN H PA NL P1 P2. pose proof (no_adding _ _ _ H NL) as CA. pose proof (stage_history _ _ _ H PA) as ST.
  assert (ACT : acting s = true -> queue s = [] /\ running s = None /\ ticking (clock s) = []).
  { intros A. destruct ST as [(k & K & E)|(k & K & E & F)]; [|rewrite (F SN) in A; discriminate].
    pose proof (e_acting _ _ E A) as B. split; [exact (e_queue _ _ E)|]. split; [destruct (e_running _ _ E) as [R|[R _]]; [exact R|lia]|].
    change (clock s) with (snd (sim s, clock s)). rewrite (e_prep _ _ E). apply prep_ticking. lia. }
  assert (HD : forall a q, todo s = a :: q -> (forall i, a <> Listen i) -> running s = None).
  { intros a q T N0. destruct ST as [(k & K & E)|(k & K & E & F)].
    - destruct (e_running _ _ E) as [R|[-> R]]; [exact R|]. exfalso. rewrite (e_todo _ _ E) in T. apply skipn_nth in T as [T _].
      apply late_nth in T; [|lia]. destruct T as [-> | [_ T]]; [now elim (N0 1%nat)|congruence].
    - exfalso. rewrite E in T. apply skipn_nth in T as [T _]. apply late_nth in T; [|lia]. destruct T as [-> | [_ T]]; [now elim (N0 (k - 8)%nat)|congruence]. }
  assert (IN : in_use C s = acting s) by (unfold in_use; rewrite CA; apply orb_false_r).
  destruct e as [ok reach|j ok|j| |x name args|x| |q|ok reach]; cbn [step_event].
  - unfold do_main. destruct (todo s) as [|a q] eqn:T; [discriminate|].
    destruct a as [j|name args|]; [discriminate| |]; (rewrite CA; unfold busy; erewrite (HD _ _ eq_refl) by discriminate);
    destruct (acting s); try discriminate; try apply command_no_race; try (destruct (step _ _); discriminate).
  - unfold do_connect. rewrite CA. cbn in P1, P2. destruct (nth_error (servers s) j) as [v|] eqn:V; [|discriminate].
    destruct (listening v); [|discriminate]. destruct (offers v) eqn:O; [|discriminate|discriminate].
    cbn [open set_servers set_next]. destruct (todo s) eqn:T; [|discriminate].
    destruct (open s) eqn:OP; [destruct ok; discriminate|]. cbn in P1. apply negb_true_iff in P1.
    assert (busy C (uses_responder C) s = false) as B.
    { unfold busy. destruct (running s) as [t|] eqn:R; [|reflexivity]. destruct t; try reflexivity.
      exfalso. apply (commands_left_false s P1 c name args). unfold tasks. rewrite R. now left. }
    unfold busy in *. unfold main_calls. cbn [running acting todo set_servers set_next]. rewrite B, T, andb_false_r. destruct ok; discriminate.
  - rewrite CA. destruct (nth_error (servers s) j); [|discriminate]. destruct (listening s0); discriminate.
  - unfold do_added. rewrite CA. discriminate.
  - unfold do_request. rewrite CA. destruct (mem x (watched s)); discriminate.
  - unfold do_leave. rewrite CA. destruct (mem x (watched s)); discriminate.
  - unfold do_begin. destruct (running s) eqn:R; [discriminate|]. destruct (queue s) as [|t q] eqn:Q; [discriminate|].
    assert (acting s = false) as A by (destruct (acting s) eqn:A; [destruct (ACT eq_refl); discriminate|reflexivity]).
    unfold conflict, main_calls. rewrite IN, A. cbn. rewrite !andb_false_r. discriminate.
  - unfold do_tick. destruct (running s) eqn:R; [discriminate|]. destruct (ticking (clock s)) eqn:TK; [discriminate|].
    destruct (forallb _ q); [|discriminate].
    assert (acting s = false) as A by (destruct (acting s) eqn:A; [destruct (ACT eq_refl) as (_ & _ & X); discriminate|reflexivity]).
    unfold conflict, main_calls. rewrite IN, A. cbn. discriminate.
  - unfold do_finish. destruct (running s) as [t|] eqn:R; [|discriminate].
    destruct t as [x j cf|x name args|e| |q]; try discriminate.
    + destruct (step _ _); discriminate.
    + destruct (ends name); [|apply command_no_race]. cbn. destruct (ended s); discriminate.
    + cbn [sim set_tasks queue]. destruct (mem e _); [|discriminate]. unfold remove. destruct (step _ _); discriminate.
Qed.

(** ** The end of the process *)

Lemma command_crash ok reach (t : state) n a : command C ok reach t n a = Crash -> ok = false \/ handle n a = Undefined \/ handle n a = Throws.
Proof.
  unfold command. destruct (handle n a) as [k r| |]; auto.
  assert (EF : forall k (t : state), effects C reach t k <> Crash).
  { clear. induction k as [|f k IH]; intros t; cbn; [discriminate|].
    destruct (effect_step C reach t f) eqn:E; try discriminate; [apply IH|]. exfalso.
    unfold effect_step, remove, add_link in E. destruct f as [p|p|h p ty|d]; [|discriminate| |discriminate].
    - destruct p; try (destruct (step _ _)); discriminate.
    - destruct reach; [|discriminate]. destruct (step _ _); discriminate. }
  specialize (EF k t). destruct (effects C reach t k); try discriminate; [|now elim EF].
  unfold respond. destruct (map _ r), (responder s); try discriminate. destruct (mem n0 (watched s)); [|discriminate]. destruct ok; [discriminate|auto].
Qed.
Lemma stops_because l s o e : hist l s o -> step_event s e = Crash ->
  (exists i, e = Connect i false) \/ (exists reach, e = Main false reach) \/
  (exists ok reach c name args, e = Finish ok reach /\ running s = Some (Command c name args) /\
     (ok = false \/ (needs_argument name /\ args = []) \/ bad_interval name args \/ (ended s = true /\ name = str "END_SIMULATION"))).
Proof.
  intros H S. destruct e as [ok reach|j ok|j| |x name args|x| |q|ok reach]; cbn [step_event] in S.
  - right. left. unfold do_main in S. destruct (todo s) as [|[j|name args|] q] eqn:T; [discriminate|discriminate| |].
    + destruct (acting s); [|destruct (_ || _); discriminate]. apply command_crash in S as [-> | S]; [eauto|]. exfalso.
      destruct (todo_end _ _ _ _ _ _ _ _ H) as [p P]. rewrite T in P.
      assert (In (Call name args) (all_actions standard config sniffer)) as A by (rewrite <- P; apply in_app_iff; right; now left).
      apply in_actions in A. unfold topology in A. cbn [In] in A.
      repeat (destruct A as [A|A]; [injection A as <- <-; vm_compute in S; destruct S as [S|S]; discriminate S|]). destruct A.
    + destruct (acting s); [destruct (step _ _); discriminate|destruct (_ || _); discriminate].
  - left. unfold do_connect in S. destruct (adding s) eqn:A; [discriminate|].
    destruct (nth_error (servers s) j) as [v|] eqn:V; [|discriminate]. destruct (listening v) eqn:LI; [|discriminate].
    destruct (offers v) as [|ty|cf] eqn:O; cbn [open set_servers set_next] in S.
    + destruct (open s); [destruct ok; [discriminate|eauto]|]. destruct (_ || _); [discriminate|]. destruct ok; [discriminate|eauto].
    + destruct (_ || _); discriminate.
    + discriminate.
  - destruct (adding s); [discriminate|]. destruct (nth_error (servers s) j); [|discriminate]. destruct (listening s0); discriminate.
  - unfold do_added, add_link in S. destruct (adding s) as [[[j x] ty]|] eqn:A; [|discriminate]. destruct (step _ _); discriminate.
  - unfold do_request in S. destruct (adding s) eqn:A; [discriminate|]. destruct (mem x (watched s)); discriminate.
  - unfold do_leave in S. destruct (adding s) eqn:A; [discriminate|]. destruct (mem x (watched s)); discriminate.
  - unfold do_begin in S. destruct (running s) eqn:R; [discriminate|]. destruct (queue s) as [|t q] eqn:Q; [discriminate|].
    destruct (conflict C t s); discriminate.
  - unfold do_tick in S. destruct (running s) eqn:R; [discriminate|]. destruct (ticking (clock s)); [discriminate|].
    destruct (forallb _ q); [|discriminate]. destruct (conflict C _ s); discriminate.
  - right. right. unfold do_finish in S. destruct (running s) as [t|] eqn:R; [|discriminate].
    destruct t as [x j cf|x name args|e| |q]; try discriminate.
    + destruct (step _ _); discriminate.
    + exists ok, reach, x, name, args. split; [reflexivity|]. split; [reflexivity|]. unfold ends in S. destruct (list_eqb name _) eqn:EN.
      * cbn in S. destruct (ended s); [|discriminate]. apply list_eqb_eq in EN. auto.
      * apply command_crash in S as [S|[S|S]]; auto; apply (handle_cases name args) in S; auto.
    + cbn [sim set_tasks queue] in S. destruct (mem e _); [unfold remove in S; destruct (step _ _)|]; discriminate.
Qed.
(** The simulation ends when END_SIMULATION was executed, and only then. *)
Lemma ended_iff l s o : hist l s o -> (ended s = true <-> In Ended o).
Proof.
  revert l s o. apply (hist_ind standard config binds sniffer prefix (fun _ s o => ended s = true <-> In Ended o)).
  - cbn. split; [discriminate|intros []].
  - intros l s o e s' o' _ IH S. rewrite in_app_iff, <- IH. clear IH.
    assert (SAID : forall t name, said t name o' -> ~ In Ended o').
    { intros t name [->|(c & r & _ & _ & ->)] K; [destruct K|]. apply in_map_iff in K as (y & K & _). discriminate. }
    assert (KEEP : ended s' = ended s -> ~ In Ended o' -> ended s' = true <-> ended s = true \/ In Ended o') by (intros ->; tauto).
    destruct e as [ok reach|j ok|j| |x name args|x| |q|ok reach]; cbn [step_event] in S.
    + unfold do_main in S. destruct (todo s) as [|[j|name args|] q] eqn:T; [discriminate| | |].
      * injection S as <- <-. apply KEEP; auto.
      * destruct (acting s); [apply command_frame in S as [F Q]; apply KEEP; [exact (f_ended _ _ F)|eapply SAID; eauto]|].
        destruct (_ || _); [discriminate|]. injection S as <- <-. apply KEEP; auto.
      * destruct (acting s); [destruct (step _ _); [|discriminate]|destruct (_ || _); [discriminate|]]; injection S as <- <-; apply KEEP; auto.
    + unfold do_connect in S. destruct (adding s) eqn:A; [discriminate|].
      destruct (nth_error (servers s) j) as [v|] eqn:V; [|discriminate]. destruct (listening v) eqn:LI; [|discriminate].
      destruct (offers v) as [|ty|cf] eqn:O; cbn [open set_servers set_next] in S;
      repeat match type of S with context [if ?x then _ else _] => destruct x; try discriminate end; injection S as <- <-; (apply KEEP; [reflexivity|cbn; intuition discriminate]).
    + destruct (adding s); [discriminate|]. destruct (nth_error (servers s) j); [|discriminate]. destruct (listening s0); [|discriminate]. injection S as <- <-. apply KEEP; auto.
    + unfold do_added, add_link in S. destruct (adding s) as [[[j x] ty]|] eqn:A; [|discriminate]. destruct (step _ _); [|discriminate]. injection S as <- <-. apply KEEP; auto.
    + unfold do_request in S. destruct (adding s) eqn:A; [discriminate|]. destruct (mem x (watched s)); [|discriminate]. injection S as <- <-. apply KEEP; auto.
    + unfold do_leave in S. destruct (adding s) eqn:A; [discriminate|]. destruct (mem x (watched s)); [|discriminate]. injection S as <- <-. apply KEEP; auto.
    + unfold do_begin in S. destruct (running s) eqn:R; [discriminate|]. destruct (queue s) as [|t q] eqn:Q; [discriminate|].
      destruct (conflict C t s); [discriminate|]. injection S as <- <-. apply KEEP; auto.
    + unfold do_tick in S. destruct (running s) eqn:R; [discriminate|]. destruct (ticking (clock s)); [discriminate|].
      destruct (forallb _ q); [|discriminate]. destruct (conflict C _ s); [discriminate|]. injection S as <- <-. apply KEEP; auto.
    + unfold do_finish in S. destruct (running s) as [t|] eqn:R; [|discriminate].
      destruct t as [x j cf|x name args|e| |q].
      * destruct (step _ _); [|discriminate]. injection S as <- <-. apply KEEP; [reflexivity|cbn; intuition discriminate].
      * destruct (ends name).
        { cbn [ended set_tasks] in S. destruct (ended s) eqn:EN; [discriminate|]. injection S as <- <-. cbn. tauto. }
        apply command_frame in S as [F Q]. apply KEEP; [exact (f_ended _ _ F)|eapply SAID; eauto].
      * cbn [sim set_tasks queue] in S. destruct (mem e _); [unfold remove in S; destruct (step _ _); [|discriminate]|]; injection S as <- <-; apply KEEP; auto.
      * destruct (step _ _); [|discriminate]. injection S as <- <-. apply KEEP; auto.
      * injection S as <- <-. apply KEEP; auto.
Qed.
End TestClients.
