(** Proofs for LePairSpec.v: what the two controllers agree on while packets are under way. *)
From Verif Require Import Prelude Address Rpa Table LeTypes LeAdvertise LeLists LeScan LeInitiate LeHost LeHistory LeTac LeFrame LeLedgerSpec LeLedger LePairSpec LePair.
From Verif Require Handles HandlesProofs.
Open Scope N_scope.

(** * The connections between two addresses, and the packets about them *)

Definition fits (own peer : list N) (c : le_conn) : bool := list_eqb (awt_addr (c_own c)) own && list_eqb (awt_addr (c_peer c)) peer.
Definition at_key (own peer : list N) (m : table le_conn) : list le_conn := List.filter (fits own peer) (map snd m).

Inductive sym := Conn (i adv : address_with_type) (x y z : N) | Bye.

Definition up (x y : list N) (q : air) : list sym :=
  match q with
  | AirConnect i adv a b c => if list_eqb (awt_addr i) x && list_eqb (awt_addr adv) y then [Conn i adv a b c] else []
  | AirDisconnect src dst _ => if list_eqb src x && list_eqb dst y then [Bye] else []
  | _ => []
  end.
Definition down (x y : list N) (q : air) : list sym :=
  match q with
  | AirConnectComplete i adv a b c => if list_eqb (awt_addr i) x && list_eqb (awt_addr adv) y then [Conn i adv a b c] else []
  | AirDisconnect src dst _ => if list_eqb src y && list_eqb dst x then [Bye] else []
  | _ => []
  end.

Definition made (b : le_conn) (k : sym) : Prop :=
  match k with
  | Conn i adv x y z => c_central b = false /\ c_peer b = i /\ c_own b = adv /\ c_interval b = x /\ c_latency b = y /\ c_supervision b = z
  | Bye => False
  end.
Definition is_conn (k : sym) : Prop := match k with Conn _ _ _ _ _ => True | Bye => False end.
Notation byes := (Forall (eq Bye)).

Inductive agree : list le_conn -> list le_conn -> list sym -> list sym -> Prop :=
| ag_none : forall W V, byes W -> byes V -> agree [] [] W V
| ag_both : forall a b, mirror a b -> agree [a] [b] [] []
| ag_phone : forall a V, byes V -> V <> [] -> agree [a] [] [] V
| ag_watch : forall b W, byes W -> W <> [] -> agree [] [b] W []
| ag_asked : forall w k V, byes w -> is_conn k -> byes V -> agree [] [] (w ++ [k]) V
| ag_asked_closing : forall b w k, byes w -> w <> [] -> is_conn k -> agree [] [b] (w ++ [k]) []
| ag_answered : forall v b k, byes v -> is_conn k -> made b k -> agree [] [b] [] (v ++ [k])
| ag_answered_closed : forall v v2 k, byes v -> byes v2 -> v2 <> [] -> is_conn k -> agree [] [] [] (v ++ k :: v2).

Lemma byes_app a b : byes (a ++ b) <-> byes a /\ byes b.
Proof. apply Forall_app. Qed.
Lemma byes_one : byes [Bye].
Proof. constructor; [reflexivity|constructor]. Qed.
Lemma not_nil_app {A} (l : list A) x : l ++ [x] <> [].
Proof. now destruct l. Qed.
Lemma bye_in l : byes l -> l <> [] -> In Bye l.
Proof. intros B N. destruct l; [now destruct N|]. inversion B; subst. now left. Qed.
#[local] Hint Resolve byes_one not_nil_app : core.

Lemma close_phone a LB W V : agree [a] LB W V -> agree [] LB (W ++ [Bye]) V.
Proof.
  intros H. inversion H; subst; cbn [app]; try (constructor; auto; discriminate). 
Qed.
Lemma close_watch LA b W V : agree LA [b] W V -> agree LA [] W (V ++ [Bye]).
Proof.
  intros H. inversion H; subst; try (constructor; auto; discriminate).
  rewrite <- app_assoc. cbn [app]. apply ag_answered_closed; auto; discriminate.
Qed.

Lemma ask LB W V k : agree [] LB W V -> byes W -> byes V -> is_conn k -> agree [] LB (W ++ [k]) V.
Proof.
  intros H BW BV K. inversion H; subst; try (constructor; auto; fail).
  - apply byes_app in BV as [_ BV]. inversion BV; subst. cbn in *; contradiction.
Qed.

(** The first packet under way to the watch *)
Lemma watch_bye LA LB W V : agree LA LB (Bye :: W) V -> agree LA [] W V.
Proof.
  intros H. inversion H; subst.
  - inversion H0; subst. now constructor.
  - inversion H0; subst. now constructor.
  - destruct w as [|s w]; injection H0 as -> <-; [contradiction|]. inversion H1; subst. now apply ag_asked.
  - destruct w as [|s w]; [contradiction|]. injection H0 as -> <-. inversion H1; subst. apply ag_asked; auto.
Qed.
Lemma watch_conn LA LB W V k : agree LA LB (k :: W) V -> is_conn k -> LA = [] /\ LB = [] /\ W = [] /\ byes V.
Proof.
  intros H K. inversion H; subst.
  - inversion H0; subst. contradiction.
  - inversion H0; subst. contradiction.
  - destruct w as [|s w]; injection H0 as -> <-; [auto|]. inversion H1; subst. contradiction.
  - destruct w as [|s w]; [contradiction|]. injection H0 as -> <-. inversion H1; subst. contradiction.
Qed.
(** The first packet under way to the phone *)
Lemma phone_bye LA LB W V : agree LA LB W (Bye :: V) -> agree [] LB W V.
Proof.
  intros H. inversion H; subst.
  - inversion H1; subst. now apply ag_none.
  - inversion H0; subst. apply ag_none; auto.
  - inversion H2; subst. now apply ag_asked.
  - destruct v as [|s v]; injection H0 as -> <-; [contradiction|]. inversion H1; subst. now apply ag_answered.
  - destruct v as [|s v]; injection H0 as -> <-; [contradiction|]. inversion H1; subst. now apply ag_answered_closed.
Qed.
Lemma phone_conn LA LB W V k : agree LA LB W (k :: V) -> is_conn k ->
  LA = [] /\ W = [] /\ ((exists b, LB = [b] /\ V = [] /\ made b k) \/ (LB = [] /\ byes V /\ V <> [])).
Proof.
  intros H K. inversion H; subst.
  - inversion H1; subst. contradiction.
  - inversion H0; subst. contradiction.
  - inversion H2; subst. contradiction.
  - destruct v as [|s v]; injection H0 as -> <-; [|inversion H1; subst; contradiction]. split; [reflexivity|]. split; [reflexivity|]. left. eauto.
  - destruct v as [|s v]; injection H0 as -> <-; [|inversion H1; subst; contradiction]. split; [reflexivity|]. split; [reflexivity|]. right. auto.
Qed.

(** * The table of connections *)
Lemma at_key_cons own peer h c m : at_key own peer ((h, c) :: m) = (if fits own peer c then [c] else []) ++ at_key own peer m.
Proof. unfold at_key. cbn [map snd List.filter]. now destruct (fits own peer c). Qed.

Lemma erase_splits (m : table le_conn) h c : NoDup (keys m) -> lookup m h = Some c -> exists m1 m2, m = m1 ++ (h, c) :: m2 /\ erase m h = m1 ++ m2.
Proof.
  induction m as [|[k d] m IH]; intros ND L; [discriminate|]. cbn [lookup] in L. inversion ND as [|k' l NI ND']; subst.
  destruct (k =? h) eqn:E.
  - apply N.eqb_eq in E. subst k. injection L as ->. exists [], m. split; [reflexivity|]. cbn [app].
    unfold erase. cbn [List.filter fst]. rewrite N.eqb_refl. cbn [negb]. exact (erase_absent m h NI).
  - destruct (IH ND' L) as (m1 & m2 & -> & E2). exists ((k, d) :: m1), m2. split; [reflexivity|].
    unfold erase in *. cbn [app List.filter fst]. rewrite E. cbn [negb]. now rewrite E2.
Qed.

Lemma at_key_app own peer a b : at_key own peer (a ++ b) = at_key own peer a ++ at_key own peer b.
Proof. unfold at_key. now rewrite map_app, filter_app. Qed.

Lemma erase_key own peer (m : table le_conn) h c : NoDup (keys m) -> lookup m h = Some c -> (List.length (at_key own peer m) <= 1)%nat ->
  if fits own peer c then at_key own peer m = [c] /\ at_key own peer (erase m h) = [] else at_key own peer (erase m h) = at_key own peer m.
Proof.
  intros ND L LE. destruct (erase_splits _ _ _ ND L) as (m1 & m2 & E1 & E2). rewrite E2. rewrite E1 in LE |- *. rewrite !at_key_app, at_key_cons in *.
  destruct (fits own peer c); [|reflexivity]. rewrite !app_length in LE. cbn [List.length app] in LE |- *.
  destruct (at_key own peer m1); cbn [List.length app] in LE |- *; [|lia]. destruct (at_key own peer m2); cbn [List.length] in LE; [auto|lia].
Qed.

Lemma found_fits own peer m h : NoDup (keys m) -> find_connection own peer m = Some h -> exists c, lookup m h = Some c /\ fits own peer c = true.
Proof.
  unfold find_connection. intros ND H. destruct (find _ m) as [[k c]|] eqn:F; [|discriminate]. injection H as ->. apply find_some in F as [I E].
  exists c. split; [now apply in_lookup_nodup|]. cbn [snd] in E. unfold fits. now rewrite andb_comm.
Qed.
Lemma not_found own peer m : find_connection own peer m = None -> at_key own peer m = [].
Proof.
  unfold find_connection, at_key. induction m as [|[k c] m IH]; cbn [find map List.filter snd]; [reflexivity|]. intros H.
  unfold fits at 1. rewrite andb_comm. destruct (_ && _); [discriminate|]. exact (IH H).
Qed.

Lemma fits_iff own peer c : fits own peer c = true <-> awt_addr (c_own c) = own /\ awt_addr (c_peer c) = peer.
Proof. unfold fits. rewrite andb_true_iff. split; intros [A B]; [split; now apply list_eqb_eq|subst; now rewrite !list_eqb_refl]. Qed.
Lemma in_at_key own peer m c : In c (at_key own peer m) <-> (exists h, In (h, c) m) /\ awt_addr (c_own c) = own /\ awt_addr (c_peer c) = peer.
Proof.
  unfold at_key. rewrite filter_In, fits_iff, in_map_iff. split.
  - intros (E & K). destruct E as [[h c'] [<- I]]. split; [now exists h|exact K].
  - intros ((h & I) & K). split; [|exact K]. now exists (h, c).
Qed.

(** * What a step does between two addresses *)
Definition words (f : air -> list sym) (l : list air) : list sym := flat_map f l.
Lemma words_app f a b : words f (a ++ b) = words f a ++ words f b.
Proof. apply flat_map_app. Qed.
Lemma words_said f out : (forall q, connecting q = false -> f q = []) -> words f (packets out) = words f (said out).
Proof.
  intros H. unfold said, words. induction (packets out) as [|q l IH]; [reflexivity|]. cbn [flat_map List.filter].
  destruct (connecting q) eqn:C; cbn [flat_map]; rewrite IH; [reflexivity|]. now rewrite (H _ C).
Qed.
Lemma up_other x y q : connecting q = false -> up x y q = [].
Proof. now destruct q. Qed.
Lemma down_other x y q : connecting q = false -> down x y q = [].
Proof. now destruct q. Qed.

Definition local_effect (L L' : list le_conn) (w : list sym) : Prop := (L' = L /\ w = []) \/ (exists c, L = [c] /\ L' = [] /\ w = [Bye]).

Lemma local_links f own peer s o s' out :
  (forall src dst r, f (AirDisconnect src dst r) = if list_eqb src own && list_eqb dst peer then [Bye] else []) ->
  local_step o -> links_of_step s o s' out -> NoDup (keys (conns s)) -> (List.length (at_key own peer (conns s)) <= 1)%nat ->
  local_effect (at_key own peer (conns s)) (at_key own peer (conns s')) (words f (said out)).
Proof.
  intros Ff LS S ND LE. destruct o as [c|p|]; [destruct c|destruct LS|]; cbn [links_of_step] in S; try (destruct S as (-> & _ & ->); left; split; reflexivity).
  - destruct S as (-> & -> & _).
    assert (words f (map bye (conns s)) = map (fun _ => Bye) (at_key own peer (conns s))) as ->.
    { clear LE ND LS. induction (conns s) as [|[h c] m IH]; [reflexivity|]. rewrite at_key_cons. unfold words in *. cbn [map flat_map bye snd]. unfold bye at 1. cbn [snd]. rewrite Ff, IH.
      unfold fits. now destruct (_ && _). }
    destruct (at_key own peer (conns s)) as [|c [|]]; [left; split; reflexivity|right|cbn in LE; lia]. exists c. repeat split; reflexivity.
  - destruct (lookup (conns s) h) as [c|] eqn:L; destruct S as (-> & _ & ->); [|left; split; reflexivity].
    pose proof (erase_key own peer _ _ _ ND L LE) as E. unfold words. cbn [flat_map]. rewrite Ff, app_nil_r. change (list_eqb _ own && list_eqb _ peer) with (fits own peer c).
    destruct (fits own peer c); [right; exists c; intuition|left; auto].
Qed.

(** * Both controllers *)
Record fine_pair (p : pair) : Prop := {
  fp_phone : handles_fine (conns (phone p)) (last_handle (phone p));
  fp_watch : handles_fine (conns (watch p)) (last_handle (watch p));
  fp_idle : init_enabled (init (watch p)) = false;
  fp_up : existsb is_response (to_watch p) = false;
  fp_down : existsb is_request (to_phone p) = false;
  fp_agree : forall x y, agree (at_key x y (conns (phone p))) (at_key y x (conns (watch p))) (words (up x y) (to_watch p)) (words (down x y) (to_phone p))
}.

Lemma agree_small LA LB W V : agree LA LB W V -> (List.length LA <= 1)%nat /\ (List.length LB <= 1)%nat.
Proof. intros []; cbn; lia. Qed.

Lemma no_request_byes x y l : existsb is_request l = false -> byes (words (up x y) l).
Proof.
  unfold words. induction l as [|q l IH]; cbn [existsb flat_map]; [constructor|]. intros H. apply orb_false_iff in H as [H1 H2].
  apply byes_app. split; [|exact (IH H2)]. destruct q; try discriminate; cbn [up]; try constructor. destruct (_ && _); auto.
Qed.
Lemma no_response_byes x y l : existsb is_response l = false -> byes (words (down x y) l).
Proof.
  unfold words. induction l as [|q l IH]; cbn [existsb flat_map]; [constructor|]. intros H. apply orb_false_iff in H as [H1 H2].
  apply byes_app. split; [|exact (IH H2)]. destruct q; try discriminate; cbn [down]; try constructor. destruct (_ && _); auto.
Qed.

Lemma none_said f out : (forall q, f q = true -> connecting q = true) -> existsb f (said out) = existsb f (packets out).
Proof.
  intros H. unfold said. induction (packets out) as [|q l IH]; [reflexivity|]. cbn [List.filter existsb]. destruct (connecting q) eqn:C; cbn [existsb]; rewrite IH; [reflexivity|].
  destruct (f q) eqn:E; [|reflexivity]. rewrite (H _ E) in C. discriminate.
Qed.

Lemma byes_map {A} (l : list A) g : (forall a, is_request (g a) = false /\ is_response (g a) = false) ->
  existsb is_request (map g l) = false /\ existsb is_response (map g l) = false.
Proof. intros H. induction l as [|a l [I1 I2]]; [auto|]. cbn [map existsb]. destruct (H a) as [-> ->]. now rewrite I1, I2. Qed.

(** Which packets a step says *)
Lemma says s o s' out : links_of_step s o s' out ->
  (existsb is_request (said out) = true -> init_enabled (init s) = true /\ exists q, o = Receive q /\ connecting q = false) /\
  (existsb is_response (said out) = true -> exists i adv x y z, o = Receive (AirConnect i adv x y z)).
Proof.
  intros S. assert (forall l, said out = l -> l = [] -> (existsb is_request (said out) = true -> False) /\ (existsb is_response (said out) = true -> False)) as K.
  { intros l -> ->. split; discriminate. }
  destruct o as [c|p|]; [destruct c|destruct p|]; cbn [links_of_step] in S;
    try (destruct S as (_ & _ & E); destruct (K _ E eq_refl) as [K1 K2]; split; intros X; [destruct (K1 X)|destruct (K2 X)]).
  - destruct S as (_ & -> & _). destruct (byes_map (conns s) bye) as [-> ->]; [intros []; split; reflexivity|]. split; discriminate.
  - destruct (lookup (conns s) h); destruct S as (_ & _ & ->); split; discriminate.
  - destruct S as (_ & _ & [->|(I & a & adv' & x & y & z & ->)]); split; try discriminate. intros _. split; [exact I|]. eexists. split; reflexivity.
  - destruct S as (_ & _ & [->|(I & a & adv' & x & y & z & ->)]); split; try discriminate. intros _. split; [exact I|]. eexists. split; reflexivity.
  - destruct S as [(_ & _ & ->)|(h & res & last & _ & _ & _ & ->)]; split; try discriminate. intros _. eauto 8.
  - destruct S as [-> _]; split; discriminate.
  - destruct S as [-> _]; split; discriminate.
Qed.

Lemma existsb_app_false {A} (f : A -> bool) a b : existsb f (a ++ b) = false <-> existsb f a = false /\ existsb f b = false.
Proof. rewrite existsb_app. apply orb_false_iff. Qed.

Section Pair.
Variable aes : list N -> list N -> list N.
Variables rng1 rng2 : N -> N.
Variables cfg1 cfg2 : config.

Lemma request_connecting q : is_request q = true -> connecting q = true.
Proof. now destruct q. Qed.
Lemma response_connecting q : is_response q = true -> connecting q = true.
Proof. now destruct q. Qed.

Lemma not_true b : (b = true -> False) -> b = false.
Proof. destruct b; intros H; [destruct (H eq_refl)|reflexivity]. Qed.

Lemma phone_local_agree p L' w : forall x y, fine_pair p ->
  local_effect (at_key x y (conns (phone p))) L' w ->
  agree L' (at_key y x (conns (watch p))) (words (up x y) (to_watch p) ++ w) (words (down x y) (to_phone p)).
Proof.
  intros x y F [[-> ->]|(c & E & -> & ->)]; pose proof (fp_agree _ F x y) as A; [now rewrite app_nil_r|]. rewrite E in A. exact (close_phone _ _ _ _ A).
Qed.
Lemma watch_local_agree p L' w : forall x y, fine_pair p ->
  local_effect (at_key y x (conns (watch p))) L' w ->
  agree (at_key x y (conns (phone p))) L' (words (up x y) (to_watch p)) (words (down x y) (to_phone p) ++ w).
Proof.
  intros x y F [[-> ->]|(c & E & -> & ->)]; pose proof (fp_agree _ F x y) as A; [now rewrite app_nil_r|]. rewrite E in A. exact (close_watch _ _ _ _ A).
Qed.

Lemma eqb_pair a b x y : list_eqb a x && list_eqb b y = true <-> a = x /\ b = y.
Proof. rewrite andb_true_iff. split; intros [A B]; [split; now apply list_eqb_eq|subst; now rewrite !list_eqb_refl]. Qed.

Lemma key_empty own peer s : ~ has_link s own peer -> at_key own peer (conns s) = [].
Proof.
  intros H. destruct (at_key own peer (conns s)) as [|c l] eqn:E; [reflexivity|]. exfalso. apply H.
  assert (In c (at_key own peer (conns s))) as I by (rewrite E; now left). apply in_at_key in I as ((h & I) & K). exists h, c. auto.
Qed.

Lemma phone_asks p q l out a adv rest : to_phone p = q :: l -> said out = [AirConnect a adv (fst rest) (fst (snd rest)) (snd (snd rest))] -> connecting q = false ->
  (forall a adv i lat sup, In (AirConnect a adv i lat sup) (packets out) ->
     ~ has_link (phone p) (awt_addr a) (awt_addr adv) /\ existsb is_request (to_watch p) = false /\ existsb is_response (to_phone p) = false) ->
  forall x y, agree (at_key x y (conns (phone p))) (at_key y x (conns (watch p))) (words (up x y) (to_watch p)) (down x y q ++ words (down x y) l) ->
  agree (at_key x y (conns (phone p))) (at_key y x (conns (watch p))) (words (up x y) (to_watch p) ++ words (up x y) (said out)) (words (down x y) l).
Proof.
  intros E K NC OK x y A. rewrite (down_other _ _ _ NC) in A. cbn [app] in A. rewrite K. unfold words at 2. cbn [flat_map up].
  assert (In (AirConnect a adv (fst rest) (fst (snd rest)) (snd (snd rest))) (packets out)) as I.
  { assert (In (AirConnect a adv (fst rest) (fst (snd rest)) (snd (snd rest))) (said out)) as I by (rewrite K; now left). apply filter_In in I. apply I. }
  destruct (OK _ _ _ _ _ I) as (O1 & O2 & O3). destruct (_ && _) eqn:EQ; [|rewrite !app_nil_r; exact A].
  apply eqb_pair in EQ as [E1 E2]. rewrite E1, E2 in O1. rewrite (key_empty _ _ _ O1) in A |- *. cbn [app].
  apply ask; [exact A|now apply no_request_byes| |exact Logic.I].
  apply no_response_byes. rewrite E in O3. cbn [existsb] in O3. now apply orb_false_iff in O3.
Qed.

Lemma careful_fine p m p' : moves aes rng1 rng2 cfg1 cfg2 p m p' -> careful p m p' -> fine_pair p -> fine_pair p'.
Proof.
  intros M OK F. destruct F as [F1 F2 F3 F4 F5 F6] eqn:FE. clear FE. rename F into FP.
  destruct M as [p now o s' st out LS S|p now o s' st out LS S|p now q l s' st out E S|p now q l s' st out E S].
  - pose proof (step_links _ _ _ _ _ _ _ _ _ S) as K. destruct (says _ _ _ _ K) as [Q1 Q2]. constructor; cbn [phone watch to_watch to_phone]; auto.
    + exact (step_handles _ _ _ _ _ _ _ _ _ S F1).
    + apply existsb_app_false. split; [exact F4|]. rewrite <- none_said by apply response_connecting. apply not_true. intros X. destruct (Q2 X) as (? & ? & ? & ? & ? & ->). destruct LS.
    + intros x y. rewrite words_app, (words_said _ out (up_other x y)). apply phone_local_agree; [exact FP|].
      apply (local_links (up x y) x y _ _ _ _ (fun _ _ _ => eq_refl) LS K); [apply F1|]. exact (proj1 (agree_small _ _ _ _ (F6 x y))).
  - pose proof (step_links _ _ _ _ _ _ _ _ _ S) as K. destruct (says _ _ _ _ K) as [Q1 Q2]. constructor; cbn [phone watch to_watch to_phone]; auto.
    + exact (step_handles _ _ _ _ _ _ _ _ _ S F2).
    + apply (step_never _ _ _ _ _ _ _ _ _ S F3). destruct o as [[]|p0|]; try reflexivity; destruct OK.
    + apply existsb_app_false. split; [exact F5|]. rewrite <- none_said by apply request_connecting. apply not_true. intros X. destruct (Q1 X) as (Y & _). congruence.
    + intros x y. rewrite words_app, (words_said _ out (down_other x y)). apply watch_local_agree; [exact FP|].
      apply (local_links (down x y) y x _ _ _ _ (fun _ _ _ => eq_refl) LS K); [apply F2|]. exact (proj2 (agree_small _ _ _ _ (F6 x y))).
  - pose proof (step_links _ _ _ _ _ _ _ _ _ S) as K. destruct (says _ _ _ _ K) as [Q1 Q2].
    rewrite E in F5. cbn [existsb] in F5. apply orb_false_iff in F5 as [F5 F5'].
    constructor; cbn [phone watch to_watch to_phone]; auto.
    + exact (step_handles _ _ _ _ _ _ _ _ _ S F1).
    + apply existsb_app_false. split; [exact F4|]. rewrite <- none_said by apply response_connecting. apply not_true. intros X. destruct (Q2 X) as (? & ? & ? & ? & ? & EQ). injection EQ as ->. discriminate.
    + intros x y. rewrite words_app, (words_said _ out (up_other x y)). specialize (F6 x y). rewrite E in F6. unfold words in F6 at 2. cbn [flat_map] in F6. fold (words (down x y) l) in F6.
      destruct OK as [OK1 OK2]. cbn [phone] in OK2.
      destruct q; cbn [links_of_step] in K; try (destruct K as (-> & _ & ->); cbn [words flat_map]; rewrite app_nil_r; exact F6).
      * destruct K as (-> & _ & K). destruct K as [->|(I & a & adv' & u & v & w & K)]; [cbn [words flat_map]; rewrite app_nil_r; exact F6|].
        apply (phone_asks p _ l out a adv' (u, (v, w)) E K eq_refl OK1); exact F6.
      * destruct K as (-> & _ & K). destruct K as [->|(I & a & adv' & u & v & w & K)]; [cbn [words flat_map]; rewrite app_nil_r; exact F6|].
        apply (phone_asks p _ l out a adv' (u, (v, w)) E K eq_refl OK1); exact F6.
      * discriminate.
      * destruct K as [-> K]. cbn [words flat_map] in *. rewrite app_nil_r. destruct K as [(K & _)|(h & res & last & _ & -> & _)]; [destruct (OK2 K)|].
        rewrite at_key_cons. unfold fits. cbn [c_own c_peer]. cbn [down] in F6. destruct (_ && _) eqn:EQ; [|exact F6].
        cbn [app] in F6. destruct (phone_conn _ _ _ _ _ F6 Logic.I) as (-> & -> & [(b & -> & -> & MB)|(-> & BV & NV)]).
        { apply ag_both. destruct MB as (M1 & M2 & M3 & M4 & M5 & M6). unfold mirror. cbn. repeat split; congruence. }
        { apply ag_phone; assumption. }
      * destruct K as (-> & _ & K). cbn [words flat_map]. rewrite app_nil_r. cbn [down] in F6.
        pose proof (proj1 (agree_small _ _ _ _ F6)) as LE.
        destruct (find_connection dst src (conns (phone p))) as [h|] eqn:FC.
        { destruct (found_fits _ _ _ _ (HandlesProofs.tinv_nodup _ _ _ _ F1) FC) as (c & L & FT). rewrite K.
          pose proof (erase_key x y _ _ _ (HandlesProofs.tinv_nodup _ _ _ _ F1) L LE) as EK. apply fits_iff in FT as [T1 T2].
          destruct (list_eqb src y && list_eqb dst x) eqn:EQ.
          - apply eqb_pair in EQ as [-> ->]. replace (fits x y c) with true in EK by (symmetry; now apply fits_iff). destruct EK as [_ ->]. exact (phone_bye _ _ _ _ F6).
          - replace (fits x y c) with false in EK; [rewrite EK; exact F6|]. symmetry. destruct (fits x y c) eqn:FT; [|reflexivity].
            apply fits_iff in FT as [U1 U2]. rewrite <- T1, <- T2, U1, U2, !list_eqb_refl in EQ. discriminate. }
        { rewrite K. destruct (list_eqb src y && list_eqb dst x) eqn:EQ; [|exact F6]. apply eqb_pair in EQ as [-> ->]. rewrite (not_found _ _ _ FC). exact (phone_bye _ _ _ _ F6). }
  - pose proof (step_links _ _ _ _ _ _ _ _ _ S) as K. destruct (says _ _ _ _ K) as [Q1 Q2].
    rewrite E in F4. cbn [existsb] in F4. apply orb_false_iff in F4 as [F4 F4'].
    constructor; cbn [phone watch to_watch to_phone]; auto.
    + exact (step_handles _ _ _ _ _ _ _ _ _ S F2).
    + exact (step_never _ _ _ _ _ _ _ _ _ S F3 eq_refl).
    + apply existsb_app_false. split; [exact F5|]. rewrite <- none_said by apply request_connecting. apply not_true. intros X. destruct (Q1 X) as (Y & _). congruence.
    + intros x y. rewrite words_app, (words_said _ out (down_other x y)). specialize (F6 x y). rewrite E in F6. unfold words in F6 at 1. cbn [flat_map] in F6. fold (words (up x y) l) in F6.
      destruct q; cbn [links_of_step] in K; try (destruct K as (-> & _ & ->); cbn [words flat_map]; rewrite app_nil_r; exact F6).
      * destruct K as (-> & _ & [->|(I & _)]); [cbn [words flat_map]; rewrite app_nil_r; exact F6|congruence].
      * destruct K as (-> & _ & [->|(I & _)]); [cbn [words flat_map]; rewrite app_nil_r; exact F6|congruence].
      * destruct K as [(-> & _ & ->)|(h & res & last & _ & -> & _ & ->)].
        { cbn [words flat_map]. rewrite app_nil_r. cbn [up] in F6. destruct (_ && _); [|exact F6]. cbn [app] in F6.
          destruct (watch_conn _ _ _ _ _ F6 Logic.I) as (-> & -> & -> & BV). apply ag_none; [constructor|exact BV]. }
        cbn [words flat_map down]. rewrite app_nil_r, at_key_cons. unfold fits. cbn [c_own c_peer up] in *. rewrite (andb_comm (list_eqb (awt_addr adv) y)).
        destruct (_ && _); [|rewrite app_nil_r; exact F6]. cbn [app] in F6.
        destruct (watch_conn _ _ _ _ _ F6 Logic.I) as (-> & -> & -> & BV). apply ag_answered; [exact BV|exact Logic.I|]. cbn. repeat split; reflexivity.
      * discriminate.
      * destruct K as (-> & _ & K). cbn [words flat_map]. rewrite app_nil_r. cbn [up] in F6.
        pose proof (proj2 (agree_small _ _ _ _ F6)) as LE.
        destruct (find_connection dst src (conns (watch p))) as [h|] eqn:FC.
        { destruct (found_fits _ _ _ _ (HandlesProofs.tinv_nodup _ _ _ _ F2) FC) as (c & L & FT). rewrite K.
          pose proof (erase_key y x _ _ _ (HandlesProofs.tinv_nodup _ _ _ _ F2) L LE) as EK. apply fits_iff in FT as [T1 T2].
          destruct (list_eqb src x && list_eqb dst y) eqn:EQ.
          - apply eqb_pair in EQ as [-> ->]. replace (fits y x c) with true in EK by (symmetry; now apply fits_iff). destruct EK as [_ ->]. exact (watch_bye _ _ _ _ F6).
          - replace (fits y x c) with false in EK; [rewrite EK; exact F6|]. symmetry. destruct (fits y x c) eqn:FT; [|reflexivity].
            apply fits_iff in FT as [U1 U2]. rewrite <- T1, <- T2, U1, U2, !list_eqb_refl in EQ. discriminate. }
        { rewrite K. destruct (list_eqb src x && list_eqb dst y) eqn:EQ; [|exact F6]. apply eqb_pair in EQ as [-> ->]. rewrite (not_found _ _ _ FC). exact (watch_bye _ _ _ _ F6). }
Qed.

Theorem reaches_fine p : reaches aes rng1 rng2 cfg1 cfg2 careful p -> fine_pair p.
Proof.
  induction 1 as [a b|p m p' R IH M OK]; [|exact (careful_fine _ _ _ M OK IH)].
  assert (forall a, handles_fine (conns (new_le a)) (last_handle (new_le a))) as H.
  { intros c. constructor; [constructor|intros ? []|]. vm_compute. split; discriminate. }
  constructor; try reflexivity; [apply H|apply H|]. intros x y. apply ag_none; constructor.
Qed.

Lemma rest_words f l : existsb connecting l = false -> (forall q, connecting q = false -> f q = []) -> words f l = [].
Proof.
  intros H F. unfold words. induction l as [|q l IH]; [reflexivity|]. cbn [existsb flat_map] in *. apply orb_false_iff in H as [H1 H2]. now rewrite (F _ H1), (IH H2).
Qed.

Lemma agree_rest LA LB : agree LA LB [] [] -> (LA = [] /\ LB = []) \/ exists a b, LA = [a] /\ LB = [b] /\ mirror a b.
Proof.
  intros H. inversion H; subst; auto; try contradiction; try (exfalso; match goal with E : _ ++ _ = [] |- _ => destruct (app_eq_nil _ _ E) as [_ E']; discriminate E' end); right; eauto 6.
Qed.

Theorem agreement p : reaches aes rng1 rng2 cfg1 cfg2 careful p -> at_rest p ->
  (forall h c, In (h, c) (conns (phone p)) -> exists h' c', In (h', c') (conns (watch p)) /\ mirror c c') /\
  (forall h' c', In (h', c') (conns (watch p)) -> exists h c, In (h, c) (conns (phone p)) /\ mirror c c').
Proof.
  intros R [R1 R2]. apply reaches_fine in R.
  assert (forall x y, (at_key x y (conns (phone p)) = [] /\ at_key y x (conns (watch p)) = []) \/
    exists a b, at_key x y (conns (phone p)) = [a] /\ at_key y x (conns (watch p)) = [b] /\ mirror a b) as K.
  { intros x y. apply agree_rest. pose proof (fp_agree _ R x y) as A. now rewrite (rest_words _ _ R1 (up_other x y)), (rest_words _ _ R2 (down_other x y)) in A. }
  split.
  - intros h c I. assert (In c (at_key (awt_addr (c_own c)) (awt_addr (c_peer c)) (conns (phone p)))) as J by (apply in_at_key; split; [now exists h|auto]).
    destruct (K (awt_addr (c_own c)) (awt_addr (c_peer c))) as [[K1 K2]|(a & b & K1 & K2 & MI)]; rewrite K1 in J; [destruct J|]. destruct J as [->|[]].
    assert (In b [b]) as J by now left. rewrite <- K2 in J. apply in_at_key in J as ((h' & J) & _). eauto.
  - intros h c I. assert (In c (at_key (awt_addr (c_own c)) (awt_addr (c_peer c)) (conns (watch p)))) as J by (apply in_at_key; split; [now exists h|auto]).
    destruct (K (awt_addr (c_peer c)) (awt_addr (c_own c))) as [[K1 K2]|(a & b & K1 & K2 & MI)]; rewrite K2 in J; [destruct J|]. destruct J as [->|[]].
    assert (In a [a]) as J by now left. rewrite <- K1 in J. apply in_at_key in J as ((h' & J) & _). eauto.
Qed.

(** At any time, whatever is under way *)
Theorem two_ends p h c h' c' : reaches aes rng1 rng2 cfg1 cfg2 careful p ->
  In (h, c) (conns (phone p)) -> In (h', c') (conns (watch p)) ->
  awt_addr (c_own c) = awt_addr (c_peer c') -> awt_addr (c_peer c) = awt_addr (c_own c') -> mirror c c'.
Proof.
  intros R I J E1 E2. apply reaches_fine in R. pose proof (fp_agree _ R (awt_addr (c_own c)) (awt_addr (c_peer c))) as A.
  assert (In c (at_key (awt_addr (c_own c)) (awt_addr (c_peer c)) (conns (phone p)))) as IA by (apply in_at_key; split; [now exists h|auto]).
  assert (In c' (at_key (awt_addr (c_peer c)) (awt_addr (c_own c)) (conns (watch p)))) as IB by (apply in_at_key; split; [now exists h'|auto]).
  inversion A as [W V BW BV A1 A2|a b MI A1 A2|a V BV NV A1 A2|b W BW NW A1 A2|w k V BW CK BV A1 A2|b w k BW NW CK A1 A2|v b k BV CK MB A1 A2|v v2 k BV BV2 NV CK A1 A2];
    rewrite <- ?A1 in IA; rewrite <- ?A2 in IB; try (destruct IA; fail); try (destruct IB; fail). destruct IA as [<-|[]], IB as [<-|[]]. exact MI.
Qed.

(** One connection between two addresses *)
Theorem one_link p h h2 c c2 : reaches aes rng1 rng2 cfg1 cfg2 careful p ->
  awt_addr (c_own c) = awt_addr (c_own c2) -> awt_addr (c_peer c) = awt_addr (c_peer c2) ->
  (In (h, c) (conns (phone p)) -> In (h2, c2) (conns (phone p)) -> c = c2) /\
  (In (h, c) (conns (watch p)) -> In (h2, c2) (conns (watch p)) -> c = c2).
Proof.
  intros R E1 E2. apply reaches_fine in R. split; intros I J.
  - destruct (agree_small _ _ _ _ (fp_agree _ R (awt_addr (c_own c)) (awt_addr (c_peer c)))) as [LE _].
    assert (In c (at_key (awt_addr (c_own c)) (awt_addr (c_peer c)) (conns (phone p)))) as IA by (apply in_at_key; split; [now exists h|auto]).
    assert (In c2 (at_key (awt_addr (c_own c)) (awt_addr (c_peer c)) (conns (phone p)))) as IB by (apply in_at_key; split; [now exists h2|auto]).
    destruct (at_key _ _ _) as [|a [|]]; [destruct IA| |cbn in LE; lia]. destruct IA as [<-|[]], IB as [<-|[]]. reflexivity.
  - destruct (agree_small _ _ _ _ (fp_agree _ R (awt_addr (c_peer c)) (awt_addr (c_own c)))) as [_ LE].
    assert (In c (at_key (awt_addr (c_own c)) (awt_addr (c_peer c)) (conns (watch p)))) as IA by (apply in_at_key; split; [now exists h|auto]).
    assert (In c2 (at_key (awt_addr (c_own c)) (awt_addr (c_peer c)) (conns (watch p)))) as IB by (apply in_at_key; split; [now exists h2|auto]).
    destruct (at_key _ _ _) as [|a [|]]; [destruct IA| |cbn in LE; lia]. destruct IA as [<-|[]], IB as [<-|[]]. reflexivity.
Qed.

(** A connection that only one controller has: its end, or the response to its request, is under way *)
Theorem phone_only p h c : reaches aes rng1 rng2 cfg1 cfg2 careful p -> In (h, c) (conns (phone p)) ->
  (exists h' c', In (h', c') (conns (watch p)) /\ mirror c c') \/
  exists r, In (AirDisconnect (awt_addr (c_peer c)) (awt_addr (c_own c)) r) (to_phone p).
Proof.
  intros R I. apply reaches_fine in R. pose proof (fp_agree _ R (awt_addr (c_own c)) (awt_addr (c_peer c))) as A.
  assert (In c (at_key (awt_addr (c_own c)) (awt_addr (c_peer c)) (conns (phone p)))) as IA by (apply in_at_key; split; [now exists h|auto]).
  inversion A as [W V BW BV A1 A2|a b MI A1 A2 A3 A4|a V BV NV A1 A2 A3 A4|b W BW NW A1 A2|w k V BW CK BV A1 A2|b w k BW NW CK A1 A2|v b k BV CK MB A1 A2|v v2 k BV BV2 NV CK A1 A2];
    rewrite <- ?A1 in IA; try (destruct IA; fail); destruct IA as [->|[]].
  - left. assert (In b [b]) as J by now left. rewrite A2 in J. apply in_at_key in J as ((h' & J) & _). eauto.
  - right. pose proof (bye_in _ BV NV) as J.
    unfold words in J. apply in_flat_map in J as (q & J1 & J2). destruct q; cbn [down] in J2; try (destruct J2; fail).
    + destruct (_ && _); [destruct J2 as [J2|[]]; discriminate|destruct J2].
    + destruct (_ && _) eqn:EQ; [|destruct J2]. apply eqb_pair in EQ as [-> ->]. eauto.
Qed.

Theorem watch_only p h c : reaches aes rng1 rng2 cfg1 cfg2 careful p -> In (h, c) (conns (watch p)) ->
  (exists h' c', In (h', c') (conns (phone p)) /\ mirror c' c) \/
  (exists r, In (AirDisconnect (awt_addr (c_peer c)) (awt_addr (c_own c)) r) (to_watch p)) \/
  In (AirConnectComplete (c_peer c) (c_own c) (c_interval c) (c_latency c) (c_supervision c)) (to_phone p).
Proof.
  intros R I. apply reaches_fine in R. pose proof (fp_agree _ R (awt_addr (c_peer c)) (awt_addr (c_own c))) as A.
  assert (In c (at_key (awt_addr (c_own c)) (awt_addr (c_peer c)) (conns (watch p)))) as IA by (apply in_at_key; split; [now exists h|auto]).
  assert (In Bye (words (up (awt_addr (c_peer c)) (awt_addr (c_own c))) (to_watch p)) -> exists r, In (AirDisconnect (awt_addr (c_peer c)) (awt_addr (c_own c)) r) (to_watch p)) as KB.
  { intros J. unfold words in J. apply in_flat_map in J as (q & J1 & J2). destruct q; cbn [up] in J2; try (destruct J2; fail).
    + destruct (_ && _); [destruct J2 as [J2|[]]; discriminate|destruct J2].
    + destruct (_ && _) eqn:EQ; [|destruct J2]. apply eqb_pair in EQ as [-> ->]. eauto. }
  inversion A as [W V BW BV A1 A2|a b MI A1 A2 A3 A4|a V BV NV A1 A2 A3 A4|b W BW NW A1 A2 A3 A4|w k V BW CK BV A1 A2|b w k BW NW CK A1 A2 A3 A4|v b k BV CK MB A1 A2 A3 A4|v v2 k BV BV2 NV CK A1 A2];
    rewrite <- ?A2 in IA; try (destruct IA; fail); destruct IA as [->|[]].
  - left. assert (In a [a]) as J by now left. rewrite A1 in J. apply in_at_key in J as ((h' & J) & _). eauto.
  - right. left. exact (KB (bye_in _ BW NW)).
  - right. left. apply KB. rewrite <- A3. apply in_or_app. left. exact (bye_in _ BW NW).
  - right. right. destruct k as [i adv x y z|]; [|destruct CK]. destruct MB as (_ & <- & <- & <- & <- & <-).
    assert (In (Conn (c_peer c) (c_own c) (c_interval c) (c_latency c) (c_supervision c)) (words (down (awt_addr (c_peer c)) (awt_addr (c_own c))) (to_phone p))) as J by (rewrite <- A4; apply in_elt).
    unfold words in J. apply in_flat_map in J as (q & J1 & J2). destruct q; cbn [down] in J2; try (destruct J2; fail).
    + destruct (_ && _); [|destruct J2]. destruct J2 as [J2|[]]. injection J2 as -> -> -> -> ->. exact J1.
    + destruct (_ && _); [destruct J2 as [J2|[]]; discriminate|destruct J2].
Qed.

(** * One request for each attempt *)
Lemma pending_kept p p' : leads aes rng1 rng2 cfg1 cfg2 pending p p' -> requested (phone p) -> requested (phone p').
Proof.
  induction 1 as [p|p p' m p'' L IH M OK]; intros R; [exact R|]. specialize (IH R).
  destruct M as [p1 now o s' st out LS S|p1 now o s' st out LS S|p1 now q l s' st out E S|p1 now q l s' st out E S]; cbn [phone]; try exact IH;
    apply (step_waits _ _ _ _ _ _ _ _ _ S IH); [destruct o as [[]|[]|]|destruct q]; try reflexivity; try (destruct LS; fail); destruct OK.
Qed.

Lemma request_said out a adv i lat sup : In (AirConnect a adv i lat sup) (packets out) -> existsb is_request (said out) = true.
Proof. intros I. apply existsb_exists. exists (AirConnect a adv i lat sup). split; [|reflexivity]. apply filter_In. split; [exact I|reflexivity]. Qed.

Theorem one_request p o sent p1 p2 o2 sent2 p3 a adv i lat sup :
  moves aes rng1 rng2 cfg1 cfg2 p (PhoneDoes o sent) p1 -> In (AirConnect a adv i lat sup) sent ->
  leads aes rng1 rng2 cfg1 cfg2 pending p1 p2 ->
  moves aes rng1 rng2 cfg1 cfg2 p2 (PhoneDoes o2 sent2) p3 -> pending (PhoneDoes o2 sent2) ->
  forall a' adv' i' lat' sup', ~ In (AirConnect a' adv' i' lat' sup') sent2.
Proof.
  intros M I L M2 P a' adv' i' lat' sup' J.
  assert (requested (phone p1)) as R.
  { inversion M; subst; cbn [phone]; eapply step_requests; eauto using request_said. }
  apply (pending_kept _ _ L) in R.
  assert (interrupts o2 = false) as T by (destruct o2 as [[]|[]|]; try reflexivity; destruct P).
  inversion M2; subst; match goal with S : step _ _ _ _ _ _ = Ok _ _ ?out |- _ => destruct (step_waits _ _ _ _ _ _ _ _ _ S R T) as [_ N]; rewrite (request_said _ _ _ _ _ _ J) in N; discriminate end.
Qed.
End Pair.
