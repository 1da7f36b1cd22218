(** Proofs about the clients of the server. *)
From Coq Require Import String Permutation.
From Verif Require Import Prelude Table Address PhyModel PhyModelSpec PhyModelProofs PhyModelTopology TestCommand TestCommandProofs Server ServerSpec.
Open Scope N_scope.

Section Proofs.
Context {C : Type}.
Variable standard : C.
Notation state := (state C).
Notation obs := (obs C).

(** ** Commands leave the rest alone *)

Record frame (s s' : state) : Prop := {
  f_todo : todo s' = todo s; f_acting : acting s' = acting s; f_servers : servers s' = servers s;
  f_adding : adding s' = adding s; f_open : open s' = open s; f_watched : watched s' = watched s;
  f_responder : responder s' = responder s; f_running : running s' = running s; f_ended : ended s' = ended s;
  f_next : next s <= next s';
  f_queue : exists n, queue s' = queue s ++ repeat Clear n }.
Lemma frame_refl s : frame s s.
Proof. constructor; try reflexivity. exists O. cbn. now rewrite app_nil_r. Qed.
Lemma frame_trans a b c : frame a b -> frame b c -> frame a c.
Proof.
  intros F G. destruct F as [F1 F2 F3 F4 F5 F6 F7 F8 F9 F10 [n F11]], G as [G1 G2 G3 G4 G5 G6 G7 G8 G9 G10 [m G11]].
  constructor; try congruence; [lia|].
  exists (n + m)%nat. rewrite G11, F11, repeat_app, app_assoc. reflexivity.
Qed.
Ltac framed := constructor; cbn; try reflexivity; try lia; exists O; cbn; now rewrite app_nil_r.

Lemma effect_frame reach (s s' : state) f o : effect_step C reach s f = Next s' o -> frame s s' /\ o = [].
Proof.
  unfold effect_step, remove, add_link. intros H.
  destruct f as [p|p|h p ty|d].
  - destruct p; cbn [sim] in H;
    repeat match type of H with context [match ?x with _ => _ end] => destruct x; try discriminate end;
    injection H as <- <-; (split; [|reflexivity]); try framed.
    constructor; cbn; try reflexivity. now exists 1%nat.
  - injection H as <- <-. split; [framed|reflexivity].
  - destruct reach; [|injection H as <- <-; split; [apply frame_refl|reflexivity]].
    destruct (step _ _); [|discriminate]. injection H as <- <-. split; [framed|reflexivity].
  - injection H as <- <-. split; [|reflexivity]. unfold reconfigure.
    destruct (lookup (owners s) d) as [[]|]; try apply frame_refl. framed.
Qed.
Lemma effects_frame reach l : forall (s s' : state) o, effects C reach s l = Next s' o -> frame s s' /\ o = [].
Proof.
  induction l as [|f l IH]; cbn; intros s s' o H; [injection H as <- <-; split; [apply frame_refl|reflexivity]|].
  destruct (effect_step C reach s f) eqn:E; try discriminate. apply effect_frame in E as [E _].
  apply IH in H as [H ->]. split; [now apply (frame_trans _ s0)|reflexivity].
Qed.

(** What a command says, and to whom. *)
Definition said (s : state) (name : list N) (o : list obs) : Prop :=
  o = [] \/ exists c r, responder s = Some c /\ mem c (watched s) = true /\ o = map (Sent c) (map (Answer name) r).
Lemma respond_said ok (s : state) name r o : respond C ok s (map (Answer name) r) = Some o -> said s name o.
Proof.
  unfold respond, said. destruct r as [|x r]; cbn [map]; [intros [= <-]; now left|].
  destruct (responder s) as [c|]; [|intros [= <-]; now left].
  destruct (mem c (watched s)) eqn:M; [|intros [= <-]; now left].
  destruct ok; [|discriminate]. intros [= <-]. right. exists c, (x :: r). auto.
Qed.
Lemma command_split ok reach (s s' : state) name args o : command C ok reach s name args = Next s' o ->
  exists l r, handle name args = Ok l r /\ effects C reach s l = Next s' [] /\ said s' name o.
Proof.
  unfold command. destruct (handle name args) as [l r| |]; try discriminate.
  destruct (effects C reach s l) as [s1 o1| | | |] eqn:E; try discriminate.
  destruct (respond C ok s1 (map (Answer name) r)) as [o2|] eqn:R; [|discriminate].
  intros [= <- <-]. exists l, r. split; [reflexivity|].
  destruct (effects_frame _ _ _ _ _ E) as [_ ->]. split; [exact E|]. eapply respond_said; eauto.
Qed.
Lemma command_frame ok reach (s s' : state) name args o : command C ok reach s name args = Next s' o ->
  frame s s' /\ said s name o.
Proof.
  intros H. apply command_split in H as (l & r & _ & E & S). apply effects_frame in E as [E _].
  split; [exact E|]. unfold said in *. rewrite (f_responder _ _ E), (f_watched _ _ E) in S. exact S.
Qed.

(** ** Servers *)

Lemma offers_listen b i : forall l : list (server C), map offers (at_server C (listen C b) i l) = map offers l.
Proof. induction i as [|i IH]; intros [|v l]; cbn; try reflexivity. now rewrite IH. Qed.
Lemma nth_at_server f i : forall (l : list (server C)) j,
  nth_error (at_server C f i l) j =
  if Nat.eqb i j then option_map f (nth_error l j) else nth_error l j.
Proof. induction i as [|i IH]; intros [|v l] [|j]; cbn; try reflexivity; [now destruct (Nat.eqb i j)|apply IH]. Qed.
Lemma nth_offers (l : list (server C)) i v : nth_error l i = Some v -> nth_error (map offers l) i = Some (offers v).
Proof. intros H. now rewrite nth_error_map, H. Qed.
Lemma offers_open binds : forall (l : list (service C)) i, map offers (open_all C binds i l) = l.
Proof. induction l as [|v l IH]; intros i; cbn; [reflexivity|]. now rewrite IH. Qed.

(** ** One controller per host *)

Lemma hosts_app l (a b : list obs) : hosts l (a ++ b) = hosts l a ++ hosts l b.
Proof.
  induction a as [|x a IH]; cbn; [reflexivity|].
  destruct x; auto. destruct (configured l i); cbn; now rewrite IH.
Qed.
Lemma controllers_app (a b : list obs) : controllers (a ++ b) = controllers a ++ controllers b.
Proof. induction a as [|x a IH]; cbn; [reflexivity|]. destruct x; cbn; now rewrite ?IH. Qed.
Lemma said_quiet (s : state) name o svc : said s name o -> hosts svc o = [] /\ controllers o = [].
Proof.
  intros [->|(c & r & _ & _ & ->)]; [split; reflexivity|].
  induction r as [|x r [IH1 IH2]]; cbn; auto.
Qed.
Lemma pending_clear n : flat_map (@pending C) (repeat Clear n) = [].
Proof. induction n; auto. Qed.
Lemma pending_closed l : flat_map (@pending C) (map Closed l) = [].
Proof. induction l; auto. Qed.
Lemma pending_filter d l : flat_map (@pending C) (filter (fun t => negb (is_close C d t)) l) = flat_map pending l.
Proof.
  induction l as [|t l IH]; cbn; [reflexivity|].
  destruct t; cbn; rewrite ?IH; try reflexivity. destruct (d0 =? d); cbn; now rewrite IH.
Qed.
Lemma frame_waiting (s s' : state) : frame s s' -> waiting s' = waiting s.
Proof.
  intros F. unfold waiting. rewrite (f_running _ _ F). destruct (f_queue _ _ F) as [n ->].
  now rewrite flat_map_app, pending_clear, app_nil_r.
Qed.

Lemma step_ledger (s s' : state) e o : step_event s e = Next s' o ->
  waiting s ++ hosts (map offers (servers s)) o = controllers o ++ waiting s' /\
  map offers (servers s') = map offers (servers s).
Proof.
  destruct e as [ok reach|i ok|i| |c name args|c| |l|ok reach]; cbn [step_event].
  - unfold do_main. destruct (todo s) as [|[i|name args|] l] eqn:T; [discriminate| | |]; intros H.
    + injection H as <- <-. cbn [hosts controllers app]. rewrite app_nil_r. cbn [servers set_servers].
      cbn. split; [reflexivity|apply offers_listen].
    + destruct (acting s).
      * apply command_frame in H as [F S].
        destruct (said_quiet _ _ _ (map offers (servers s)) S) as [-> ->].
        rewrite (frame_waiting _ _ F), (f_servers _ _ F). cbn. rewrite app_nil_r. split; reflexivity.
      * destruct (_ || _); [discriminate|]. injection H as <- <-. cbn. rewrite app_nil_r. split; reflexivity.
    + destruct (acting s).
      * destruct (step _ _); [|discriminate]. injection H as <- <-. cbn. rewrite app_nil_r. split; reflexivity.
      * destruct (_ || _); [discriminate|]. injection H as <- <-. cbn. rewrite app_nil_r. split; reflexivity.
  - unfold do_connect. destruct (adding s); [discriminate|].
    destruct (nth_error (servers s) i) as [v|] eqn:V; [|discriminate].
    destruct (listening v); [|discriminate]. pose proof (nth_offers _ _ _ V) as NV.
    destruct (offers v) as [|ty|conf] eqn:O.
    + cbn [open set_servers set_next].
      destruct (open s); [destruct ok; [|discriminate]|destruct (_ || _); [discriminate|]; destruct ok; [|discriminate]];
      intros [= <- <-]; cbn [hosts controllers app configured]; unfold configured; rewrite NV;
      rewrite app_nil_r; cbn [servers set_servers set_next set_channel]; rewrite ?offers_listen; split; reflexivity.
    + destruct (_ || _); [discriminate|]. intros [= <- <-]. cbn [hosts]; unfold configured; rewrite NV.
      rewrite app_nil_r. cbn [servers set_adding set_servers set_next]. rewrite ?offers_listen; split; reflexivity.
    + intros [= <- <-]. cbn [hosts]; unfold configured; rewrite NV. cbn [servers set_servers set_next set_tasks controllers app].
      rewrite ?offers_listen. split; [|reflexivity]. unfold waiting. cbn [running queue set_servers set_next set_tasks].
      rewrite flat_map_app, <- app_assoc. reflexivity.
  - destruct (adding s); [discriminate|]. destruct (nth_error (servers s) i); [|discriminate].
    destruct (listening s0); [|discriminate]. intros [= <- <-]. cbn. rewrite app_nil_r. split; reflexivity.
  - unfold do_added, add_link. destruct (adding s) as [[[i c] ty]|]; [|discriminate].
    destruct (step _ _); [|discriminate]. intros [= <- <-]. cbn. rewrite app_nil_r, ?offers_listen. split; reflexivity.
  - unfold do_request. destruct (adding s); [discriminate|]. destruct (mem c (watched s)); [|discriminate].
    intros [= <- <-]. cbn. rewrite app_nil_r. unfold waiting; cbn. rewrite flat_map_app, app_nil_r. split; reflexivity.
  - unfold do_leave. destruct (adding s); [discriminate|]. destruct (mem c (watched s)); [|discriminate].
    intros [= <- <-]. cbn. rewrite app_nil_r. split; reflexivity.
  - unfold do_begin. destruct (running s) eqn:R; [discriminate|]. destruct (queue s) as [|t l] eqn:Q; [discriminate|].
    destruct (conflict C t s); [discriminate|]. intros [= <- <-]. cbn. rewrite app_nil_r. unfold waiting. cbn. rewrite R, Q. split; reflexivity.
  - unfold do_tick. destruct (running s) eqn:R; [discriminate|]. destruct (ticking (clock s)); [discriminate|].
    destruct (forallb _ l); [|discriminate]. destruct (conflict C _ s); [discriminate|].
    intros [= <- <-]. cbn. rewrite app_nil_r. unfold waiting. cbn. rewrite R. split; reflexivity.
  - unfold do_finish. destruct (running s) as [t|] eqn:R; [|discriminate].
    destruct t as [c i conf|c name args|d| |l].
    + destruct (step _ _); [|discriminate]. intros [= <- <-]. cbn. unfold waiting. rewrite R. cbn. rewrite app_nil_r. split; reflexivity.
    + destruct (ends name).
      * cbn [ended set_tasks]. destruct (ended s); [discriminate|]. intros [= <- <-]. cbn. unfold waiting. rewrite R. cbn. rewrite app_nil_r. split; reflexivity.
      * intros H. apply command_frame in H as [F S].
        destruct (said_quiet _ _ _ (map offers (servers s)) S) as [-> ->].
        rewrite (frame_waiting _ _ F), (f_servers _ _ F). cbn. unfold waiting. rewrite R. cbn. rewrite app_nil_r. split; reflexivity.
    + cbn [sim set_tasks]. destruct (mem d _).
      * unfold remove. destruct (step _ _); [|discriminate]. intros [= <- <-]. cbn. unfold waiting. rewrite R. cbn.
        rewrite pending_filter, app_nil_r. split; reflexivity.
      * intros [= <- <-]. cbn. unfold waiting. rewrite R. cbn. rewrite app_nil_r. split; reflexivity.
    + destruct (step _ _); [|discriminate]. intros [= <- <-]. cbn. unfold waiting. rewrite R. cbn. rewrite app_nil_r. split; reflexivity.
    + intros [= <- <-]. cbn. unfold waiting. rewrite R. cbn. rewrite flat_map_app, pending_closed, !app_nil_r. split; reflexivity.
Qed.

Lemma run_ledger l : forall (s s' : state) o, run_events s l = Next s' o ->
  waiting s ++ hosts (map offers (servers s)) o = controllers o ++ waiting s' /\
  map offers (servers s') = map offers (servers s).
Proof.
  induction l as [|e l IH]; cbn [run_events]; intros s s' o H.
  - injection H as <- <-. cbn. rewrite app_nil_r. split; reflexivity.
  - destruct (step_event s e) as [s1 o1| | | |] eqn:E; try discriminate.
    destruct (run_events s1 l) as [s2 o2| | | |] eqn:R; try discriminate. injection H as <- <-.
    apply step_ledger in E as [E1 E2]. apply IH in R as [R1 R2]. rewrite E2 in *.
    rewrite hosts_app, controllers_app, app_assoc, E1, <- app_assoc, R1, app_assoc.
    split; [reflexivity|congruence].
Qed.
Lemma start_offers config binds sniffer prefix :
  map offers (servers (start standard config binds sniffer prefix)) = services standard config.
Proof. apply offers_open. Qed.

Lemma one_controller_per_host config binds sniffer prefix l s o :
  history standard config binds sniffer prefix l s o ->
  hosts (services standard config) o = controllers o ++ waiting s.
Proof. intros H. apply run_ledger in H as [H _]. rewrite start_offers in H. exact H. Qed.

(** ** What holds in every state *)

Definition sockets (s : state) : list N :=
  map (fun e => socket (snd e)) (owners s) ++ map fst (waiting s) ++
  match adding s with Some (_, c, _) => [c] | None => [] end.
Record Inv (s : state) : Prop := {
  i_sim : reachable (sim s);
  i_keys : NoDup (keys (owners s));
  i_present : forall d, In d (keys (owners s)) -> present (sim s) d;
  i_sockets : NoDup (sockets s);
  i_known : Forall (fun c => c < next s) (sockets s) }.

Lemma reach_step m o m' : reachable m -> step m o = Some m' -> reachable m'.
Proof.
  intros (p & ops & R) S. exists p, (ops ++ [o]). revert R. generalize (init p) as m0.
  induction ops as [|x ops IH]; cbn; intros m0 R.
  - injection R as <-. now rewrite S.
  - destruct (step m0 x); [|discriminate]. auto.
Qed.
Lemma fresh_absent m : reachable m -> ~ present m (next_dev m).
Proof. intros R K. apply reachable_wf in R. apply (w_dnext _ R) in K. lia. Qed.
Lemma nodup_filter_map {A} (f : A -> N) p (l : list A) r : NoDup (map f l ++ r) -> NoDup (map f (filter p l) ++ r).
Proof.
  induction l as [|x l IH]; cbn; [auto|]. inversion 1 as [|? ? H1 H2]; subst.
  destruct (p x); cbn; [|auto]. constructor; [|auto]. intros K. apply H1.
  apply in_app_iff in K. apply in_app_iff. destruct K as [K|K]; [left|now right].
  apply in_map_iff in K as (y & <- & K). apply filter_In in K as [K _]. now apply in_map.
Qed.
Lemma sockets_erase (s : state) d x : In x (map (fun e => socket (snd e)) (erase (owners s) d)) ->
  In x (map (fun e => socket (snd e)) (owners s)).
Proof. intros K. apply in_map_iff in K as (y & <- & K). apply in_erase in K as [K _]. now apply (in_map (fun e => socket (snd e))). Qed.

Definition with_owners m o (s : state) := set_sim C m o s.

(** A new device whose socket was known elsewhere. *)
Lemma nodup_move (a b : list N) x : NoDup (a ++ x :: b) -> NoDup ((a ++ [x]) ++ b).
Proof. now rewrite <- app_assoc. Qed.

Lemma map_put_same (m : table (owner C)) d a b : lookup m d = Some a -> socket b = socket a ->
  map (fun e => socket (snd e)) (put m d b) = map (fun e => socket (snd e)) m.
Proof.
  intros L E. induction m as [|[k c] m IH]; cbn in *; [discriminate|]. unfold put; fold (@put (owner C)).
  destruct (k =? d); cbn; [|now rewrite IH]. injection L as ->. now rewrite E.
Qed.

Lemma inv_other (s : state) p m : Inv s -> step (sim s) p = Some m ->
  (forall d, present (sim s) d -> present_after (sim s) p d) -> Inv (set_sim C m (owners s) s).
Proof.
  intros I S K. constructor; cbn; try apply I.
  - eapply reach_step; [apply I|exact S].
  - intros d D. apply (step_present _ _ _ (i_sim _ I) S). apply K. now apply (i_present _ I).
Qed.
Lemma inv_remove (s : state) d m : Inv s -> step (sim s) (RemoveDevice d) = Some m ->
  Inv (set_sim C m (erase (owners s) d) s).
Proof.
  intros I S. constructor; cbn.
  - eapply reach_step; [apply I|exact S].
  - apply nodup_erase, I.
  - intros k K. apply (step_present _ _ _ (i_sim _ I) S). apply in_keys_erase in K as [K N]. cbn.
    split; [now apply (i_present _ I)|exact N].
  - unfold sockets. cbn. apply nodup_filter_map. apply (i_sockets _ I).
  - pose proof (i_known _ I) as K. rewrite Forall_forall in *. intros x X. apply K.
    unfold sockets in *. cbn in X. apply in_app_iff in X. apply in_app_iff. destruct X as [X|X]; [left|now right].
    eapply sockets_erase, X.
Qed.
Lemma inv_congr (s s' : state) : Inv s -> sim s' = sim s -> owners s' = owners s -> waiting s' = waiting s ->
  adding s' = adding s -> next s <= next s' -> Inv s'.
Proof.
  intros I E1 E2 E3 E4 E5. assert (E6 : sockets s' = sockets s) by (unfold sockets; now rewrite E2, E3, E4).
  constructor; rewrite ?E1, ?E2, ?E6; try apply I.
  eapply Forall_impl; [|apply (i_known _ I)]. cbn. intros; lia.
Qed.
(** A device is added for the socket [x], which is taken from the others. *)
Lemma inv_add (s : state) p m w : Inv s -> step (sim s) p = Some m ->
  (forall d, present_after (sim s) p d <-> present (sim s) d \/ d = next_dev (sim s)) ->
  ~ In (socket w) (sockets s) -> socket w < next s ->
  Inv (set_sim C m (put (owners s) (next_dev (sim s)) w) s).
Proof.
  intros I S K F L.
  assert (A : ~ In (next_dev (sim s)) (keys (owners s)))
    by (intros X; apply (i_present _ I) in X; now apply (fresh_absent _ (i_sim _ I)) in X).
  assert (E : sockets (set_sim C m (put (owners s) (next_dev (sim s)) w) s) =
     (map (fun e => socket (snd e)) (owners s) ++ [socket w]) ++ map fst (waiting s) ++
       match adding s with Some (_, c, _) => [c] | None => [] end).
  { unfold sockets. cbn. rewrite put_absent by exact A. rewrite map_app. reflexivity. }
  constructor; rewrite ?E.
  - cbn. eapply reach_step; [apply I|exact S].
  - cbn. apply nodup_put, I.
  - cbn. intros d D. apply in_keys_put in D. apply (step_present _ _ _ (i_sim _ I) S). apply K.
    destruct D as [->|D]; [now right|left; now apply (i_present _ I)].
  - rewrite <- app_assoc. cbn. apply NoDup_Add with (a := socket w) (l := sockets s).
    + apply Add_app.
    + split; [apply (i_sockets _ I)|exact F].
  - rewrite <- app_assoc. cbn. pose proof (i_known _ I) as Q. unfold sockets in Q.
    apply Forall_app in Q as [Q1 Q2]. apply Forall_app. split; [exact Q1|]. constructor; [exact L|exact Q2].
Qed.
Lemma not_known (s : state) : Inv s -> ~ In (next s) (sockets s).
Proof. intros I K. pose proof (i_known _ I) as Q. rewrite Forall_forall in Q. apply Q in K. lia. Qed.

Lemma inv_effect reach (s s' : state) f o : Inv s -> effect_step C reach s f = Next s' o -> Inv s'.
Proof.
  intros I H. unfold effect_step in H. destruct f as [p|p|h p ty|d].
  - destruct p as [a|a ty|a|d|ty|k|d k|d k|d a|b|]; unfold remove in H;
    try (destruct (step (sim s) _) as [m|] eqn:S in H; [|discriminate]; injection H as <- <-;
         solve [eapply inv_other; [exact I|exact S|cbn; tauto] | apply inv_remove; assumption]).
    injection H as <- <-. apply (inv_congr s); try reflexivity; try exact I; try (cbn; lia).
    unfold waiting. cbn. rewrite flat_map_app, app_nil_r. reflexivity.
  - injection H as <- <-. apply (inv_congr s); try reflexivity; try exact I; try (cbn; lia).
  - destruct reach; [|now injection H as <- <-].
    unfold add_link in H. destruct (step _ _) as [m|] eqn:S in H; [|discriminate]. injection H as <- <-.
    refine (inv_add (set_next C (next s + 1) s) _ m (Remote (next s) ty) _ S _ _ _).
    + apply (inv_congr s); try reflexivity; try exact I; try (cbn; lia).
    + cbn. tauto.
    + cbn. apply (not_known s I).
    + cbn. lia.
  - injection H as <- <-. unfold reconfigure.
    destruct (lookup (owners s) d) as [[c i conf|c ty|c ty]|] eqn:L; try exact I.
    assert (E : sockets (set_sim C (sim s) (put (owners s) d (Host c i None)) s) = sockets s).
    { unfold sockets. cbn. now rewrite (map_put_same _ _ _ (Host c i None) L). }
    constructor; rewrite ?E; try apply I; cbn.
    + apply nodup_put, I.
    + intros k K. apply in_keys_put in K as [->|K]; apply (i_present _ I); [exact (lookup_in _ _ _ L)|exact K].
Qed.
Lemma inv_effects reach l : forall (s s' : state) o, Inv s -> effects C reach s l = Next s' o -> Inv s'.
Proof.
  induction l as [|f l IH]; cbn; intros s s' o I H; [now injection H as <- <-|].
  destruct (effect_step C reach s f) eqn:E; try discriminate. eapply IH; [|exact H]. eapply inv_effect; eauto.
Qed.
Lemma inv_command ok reach (s s' : state) name args o : Inv s -> command C ok reach s name args = Next s' o -> Inv s'.
Proof. intros I H. apply command_split in H as (l & r & _ & E & _). eapply inv_effects; eauto. Qed.

(** The first of the waiting hosts, or the client that is being added, goes. *)
Lemma inv_step (s s' : state) e o : Inv s -> step_event s e = Next s' o -> Inv s'.
Proof.
  intros I. destruct e as [ok reach|i ok|i| |c name args|c| |l|ok reach]; cbn [step_event].
  - unfold do_main. destruct (todo s) as [|[i|name args|] l] eqn:T; [discriminate| | |]; intros H.
    + injection H as <- <-. apply (inv_congr s); try reflexivity; try exact I; try (cbn; lia).
    + destruct (acting s).
      * eapply inv_command; [|exact H]. apply (inv_congr s); try reflexivity; try exact I; try (cbn; lia).
      * destruct (_ || _); [discriminate|]. injection H as <- <-. apply (inv_congr s); try reflexivity; try exact I; try (cbn; lia).
    + destruct (acting s).
      * destruct (step _ _) as [m|] eqn:S in H; [|discriminate]. injection H as <- <-.
        apply (inv_other (set_main C l false s)) with (p := AddLinkLayer default_address BrEdr); [|exact S|cbn; tauto].
        apply (inv_congr s); try reflexivity; try exact I; try (cbn; lia).
      * destruct (_ || _); [discriminate|]. injection H as <- <-. apply (inv_congr s); try reflexivity; try exact I; try (cbn; lia).
  - unfold do_connect. destruct (adding s) eqn:A; [discriminate|].
    destruct (nth_error (servers s) i) as [v|] eqn:V; [|discriminate].
    destruct (listening v); [|discriminate].
    destruct (offers v) as [|ty|conf] eqn:O.
    + cbn [open set_servers set_next].
      destruct (open s); [destruct ok; [|discriminate]|destruct (_ || _); [discriminate|]; destruct ok; [|discriminate]];
      intros [= <- <-]; apply (inv_congr s); try reflexivity; try exact I; cbn; lia.
    + destruct (_ || _); [discriminate|]. intros [= <- <-].
      pose proof (not_known s I) as K.
      constructor; try apply I; unfold sockets in *; cbn; rewrite A in *; cbn in *; rewrite app_nil_r in *.
      * pose proof (i_sockets _ I) as Q. unfold sockets in Q. rewrite A, app_nil_r in Q.
        rewrite app_assoc. apply NoDup_Add with (a := next s) (l := map (fun e => socket (snd e)) (owners s) ++ map fst (waiting s)).
        { rewrite <- (app_nil_r (_ ++ _)) at 1. apply Add_app. } { split; assumption. }
      * pose proof (i_known _ I) as Q. unfold sockets in Q. rewrite A, app_nil_r in Q.
        rewrite app_assoc. apply Forall_app. split; [|repeat constructor; lia].
        eapply Forall_impl; [|exact Q]. cbn. intros; lia.
    + intros [= <- <-]. pose proof (not_known s I) as K.
      assert (E : waiting (set_servers C (at_server C (listen C true) i (at_server C (listen C false) i (servers s)))
         (set_tasks C (queue s ++ [Attach (next s) i conf]) (running s)
           (set_next C (next s + 1) (set_servers C (at_server C (listen C false) i (servers s)) s)))) =
         waiting s ++ [(next s, conf)]).
      { unfold waiting. cbn. rewrite flat_map_app, app_assoc. reflexivity. }
      constructor; try apply I; unfold sockets in *; cbn [queue running set_servers set_next set_tasks servers adding next owners]; rewrite ?E, ?map_app, ?A in *; cbn [map fst] in *.
      * pose proof (i_sockets _ I) as Q. unfold sockets in Q. rewrite A, app_nil_r in Q. rewrite app_nil_r in *.
        rewrite app_assoc. apply NoDup_Add with (a := next s) (l := map (fun e => socket (snd e)) (owners s) ++ map fst (waiting s)).
        { rewrite <- (app_nil_r (_ ++ _)) at 1. apply Add_app. } { split; assumption. }
      * pose proof (i_known _ I) as Q. unfold sockets in Q. rewrite A, app_nil_r in Q. rewrite app_nil_r in *.
        rewrite app_assoc. apply Forall_app. split; [|repeat constructor; lia].
        eapply Forall_impl; [|exact Q]. cbn. intros; lia.
  - destruct (adding s); [discriminate|]. destruct (nth_error (servers s) i); [|discriminate].
    destruct (listening s0); [|discriminate]. intros [= <- <-]. exact I.
  - unfold do_added, add_link. destruct (adding s) as [[[i c] ty]|] eqn:A; [|discriminate].
    destruct (step _ _) as [m|] eqn:S; [|discriminate]. intros [= <- <-].
    pose proof (i_sockets _ I) as Q. unfold sockets in Q. rewrite A in Q. rewrite app_assoc in Q.
    pose proof (i_known _ I) as Q2. unfold sockets in Q2. rewrite A in Q2. rewrite app_assoc in Q2.
    apply NoDup_remove in Q as [Q Q1]. rewrite app_nil_r in *. apply Forall_app in Q2 as [Q2 Q3].
    set (t := set_servers C _ _) in *.
    assert (It : Inv t).
    { constructor; try apply I; unfold sockets, t; cbn; rewrite app_nil_r; assumption. }
    refine (inv_add t (AddLinkLayer default_address ty) m (Peer c ty) It S _ _ _).
    + cbn. tauto.
    + unfold sockets, t. cbn. now rewrite app_nil_r.
    + cbn. now inversion Q3.
  - unfold do_request. destruct (adding s) eqn:A; [discriminate|]. destruct (mem c (watched s)); [|discriminate].
    intros [= <- <-]. apply (inv_congr s); try reflexivity; try exact I; try (cbn; lia).
    unfold waiting; cbn. rewrite flat_map_app, app_nil_r. reflexivity.
  - unfold do_leave. destruct (adding s); [discriminate|]. destruct (mem c (watched s)); [|discriminate].
    intros [= <- <-]. apply (inv_congr s); try reflexivity; try exact I; try (cbn; lia).
  - unfold do_begin. destruct (running s) eqn:R; [discriminate|]. destruct (queue s) as [|t l] eqn:Q; [discriminate|].
    destruct (conflict C t s); [discriminate|]. intros [= <- <-]. apply (inv_congr s); try reflexivity; try exact I; try (cbn; lia).
    unfold waiting. cbn. rewrite R, Q. reflexivity.
  - unfold do_tick. destruct (running s) eqn:R; [discriminate|]. destruct (ticking (clock s)); [discriminate|].
    destruct (forallb _ l); [|discriminate]. destruct (conflict C _ s); [discriminate|].
    intros [= <- <-]. apply (inv_congr s); try reflexivity; try exact I; try (cbn; lia). unfold waiting. cbn. rewrite R. reflexivity.
  - unfold do_finish. destruct (running s) as [t|] eqn:R; [|discriminate].
    destruct t as [c i conf|c name args|d| |l].
    + destruct (step _ _) as [m|] eqn:S; [|discriminate]. intros [= <- <-].
      pose proof (i_sockets _ I) as Q. unfold sockets, waiting in Q. rewrite R in Q. cbn in Q.
      pose proof (i_known _ I) as Q2. unfold sockets, waiting in Q2. rewrite R in Q2. cbn in Q2.
      apply NoDup_remove in Q as [Q Q1]. apply Forall_app in Q2 as [Q2 Q3]. inversion Q3 as [|? ? Q4 Q5]; subst.
      set (t := set_tasks C (queue s) None s) in *.
      assert (It : Inv t).
      { constructor; try apply I; unfold sockets, waiting, t; cbn; [assumption|]. apply Forall_app; now split. }
      refine (inv_add t (AddHci None) m (Host c i (Some conf)) It S _ _ _).
      * cbn. tauto.
      * exact Q1.
      * exact Q4.
    + destruct (ends name).
      * cbn [ended set_tasks]. destruct (ended s); [discriminate|]. intros [= <- <-].
        apply (inv_congr s); try reflexivity; try exact I; try (cbn; lia). unfold waiting. cbn. rewrite R. reflexivity.
      * intros H. eapply inv_command; [|exact H]. apply (inv_congr s); try reflexivity; try exact I; try (cbn; lia).
        unfold waiting. cbn. rewrite R. reflexivity.
    + cbn [sim set_tasks queue]. destruct (mem d _).
      * unfold remove. destruct (step _ _) as [m|] eqn:S; [|discriminate]. intros [= <- <-].
        refine (inv_remove (set_tasks C _ None (set_tasks C (queue s) None s)) d m _ S). apply (inv_congr s); try reflexivity; try exact I; try (cbn; lia).
        unfold waiting. cbn. rewrite R, pending_filter. reflexivity.
      * intros [= <- <-]. apply (inv_congr s); try reflexivity; try exact I; try (cbn; lia). unfold waiting. cbn. rewrite R. reflexivity.
    + destruct (step _ _) as [m|] eqn:S; [|discriminate]. intros [= <- <-].
      pose proof (i_sockets _ I) as Q. unfold sockets, waiting in Q. rewrite R in Q. cbn in Q.
      pose proof (i_known _ I) as Q2. unfold sockets, waiting in Q2. rewrite R in Q2. cbn in Q2.
      apply Forall_app in Q2 as [_ Q2].
      constructor; cbn.
      * eapply reach_step; [apply I|exact S].
      * constructor.
      * tauto.
      * unfold sockets, waiting. cbn. clear -Q. induction (map _ (owners s)) as [|x l IH]; [exact Q|]. inversion Q. auto.
      * exact Q2.
    + intros [= <- <-]. apply (inv_congr s); try reflexivity; try exact I; try (cbn; lia).
      unfold waiting. cbn. rewrite R, flat_map_app, pending_closed, app_nil_r. reflexivity.
Qed.
Lemma inv_run l : forall (s s' : state) o, Inv s -> run_events s l = Next s' o -> Inv s'.
Proof.
  induction l as [|e l IH]; cbn [run_events]; intros s s' o I H; [now injection H as <- <-|].
  destruct (step_event s e) as [s1 o1| | | |] eqn:E; try discriminate.
  destruct (run_events s1 l) as [s2 o2| | | |] eqn:R; try discriminate. injection H as <- <-.
  eapply IH; [|exact R]. eapply inv_step; eauto.
Qed.
Lemma inv_start config binds sniffer prefix : Inv (start standard config binds sniffer prefix).
Proof.
  constructor; cbn; try constructor; try tauto. exists prefix, []. reflexivity.
Qed.
Lemma inv_history config binds sniffer prefix l s o : history standard config binds sniffer prefix l s o -> Inv s.
Proof. intros H. eapply inv_run; [|exact H]. apply inv_start. Qed.
End Proofs.
