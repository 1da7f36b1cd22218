(** Lemmas about the channel. *)
From Coq Require Import Permutation.
From Verif Require Import Prelude PhyModelSpec Channel ChannelSpec.
Open Scope N_scope.

Section Proofs.
Context {P D : Type}.
Variable receivers : N -> list N.
Variable tick : N -> Z -> prog P D.
Variable receive : N -> P -> Z -> prog P D.
Notation step := (step receivers tick receive).
Notation act := (act receivers tick receive).
Notation run := (run receivers tick receive).

Definition pending (r : N) (l : list (frame P D)) : list (N * P) :=
  flat_map (fun f => match f with Delivering d p rs => repeat (d, p) (times r rs) | _ => [] end) l.

Lemma sent_app (a b : list (event P)) : sent (a ++ b) = sent a ++ sent b.
Proof. apply flat_map_app. Qed.
Lemma heard_app r (a b : list (event P)) : heard r (a ++ b) = heard r a ++ heard r b.
Proof. apply flat_map_app. Qed.
Lemma meant_app r (a b : list (N * P)) : meant receivers r (a ++ b) = meant receivers r a ++ meant receivers r b.
Proof. apply flat_map_app. Qed.
Lemma times_cons r x l : times r (x :: l) = ((if (x =? r)%N then 1 else 0) + times r l)%nat.
Proof. unfold times. cbn. destruct (N.eq_dec x r) as [->|NE]; [now rewrite N.eqb_refl|]. apply N.eqb_neq in NE. now rewrite NE. Qed.
Lemma pending_waiting r ds : pending r (map Waiting ds) = [].
Proof. induction ds; auto. Qed.

Lemma run_snoc (s : state P D) l i : run s (l ++ [i]) =
  match run s l with
  | Some (t, o) => match act t i with Some (t2, o2) => Some (t2, o ++ o2) | None => None end
  | None => None
  end.
Proof.
  revert s. induction l as [|x l IH]; intros s; cbn [app Channel.run].
  - destruct (act s i) as [[t o]|]; [|reflexivity]. cbn. now rewrite app_nil_r.
  - destruct (act s x) as [[t o]|]; [|reflexivity]. rewrite IH. destruct (run t l) as [[t2 o2]|]; [|reflexivity].
    destruct (act t2 i) as [[t3 o3]|]; [|reflexivity]. now rewrite app_assoc.
Qed.
Lemma run_ind (Q : state P D -> list (event P) -> Prop) m :
  Q (start m) [] -> (forall l s o i s' o', run (start m) l = Some (s, o) -> Q s o -> act s i = Some (s', o') -> Q s' (o ++ o')) ->
  forall l s o, run (start m) l = Some (s, o) -> Q s o.
Proof.
  intros B S l. induction l as [|i l IH] using rev_ind; intros s o H.
  - injection H as <- <-. exact B.
  - rewrite run_snoc in H. destruct (run (start m) l) as [[t p]|] eqn:R; [|discriminate].
    destruct (act t i) as [[t2 p2]|] eqn:A; [|discriminate]. injection H as <- <-. eapply S; eauto.
Qed.

(** ** Every device hears what it has to hear *)

Lemma perm_history m l s o r : run (start m) l = Some (s, o) ->
  Permutation (heard r o ++ pending r (stack s)) (meant receivers r (sent o)).
Proof.
  revert l s o. apply run_ind; [reflexivity|]. intros l s o i s' o' _ IH A.
  rewrite sent_app, heard_app, meant_app. destruct i as [ds|now]; cbn in A.
  - destruct (stack s) eqn:S; [|discriminate]. injection A as <- <-. cbn [stack]. rewrite pending_waiting, !app_nil_r in *. exact IH.
  - unfold Channel.step in A. destruct (stack s) as [|[d|d [|f k|p k]|d p [|x rs]] q] eqn:S; try discriminate; injection A as <- <-;
      cbn [stack pending flat_map app sent heard meant] in *; rewrite ?app_nil_r in *; try exact IH.
    + rewrite <- IH. cbn [fst]. rewrite ?app_nil_r, <- app_assoc. apply Permutation_app_head, Permutation_app_comm.
    + rewrite <- IH, times_cons. destruct (x =? r); cbn [Nat.add repeat]; rewrite ?app_nil_r.
      * now rewrite <- app_assoc.
      * reflexivity.
Qed.
Lemma all_heard m l s o r : run (start m) l = Some (s, o) -> idle s -> Permutation (heard r o) (meant receivers r (sent o)).
Proof. intros H I. generalize (perm_history _ _ _ _ r H). rewrite I. now rewrite app_nil_r. Qed.

(** ** In order *)

Definition calm (f : frame P D) : Prop := match f with Delivering _ _ _ => False | _ => True end.
Definition orderly (l : list (frame P D)) : Prop :=
  Forall calm l \/ (exists d p rs q, l = Delivering d p rs :: q /\ Forall calm q) \/
  (exists r c d p rs q, l = Running r c :: Delivering d p rs :: q /\ silent c /\ Forall calm q).
Lemma pending_calm r l : Forall calm l -> pending r l = [].
Proof. induction 1 as [|[| |] l H _ IH]; cbn; auto. destruct H. Qed.

Lemma order_history m l s o : discreet receive -> run (start m) l = Some (s, o) ->
  orderly (stack s) /\ forall r, heard r o ++ pending r (stack s) = meant receivers r (sent o).
Proof.
  intros Q. revert l s o. apply run_ind; [split; [left; constructor|reflexivity]|]. intros l s o i s' o' _ [SH IH] A.
  destruct i as [ds|now]; cbn in A.
  - destruct (stack s) eqn:S; [|discriminate]. injection A as <- <-. cbn [stack]. split.
    + left. apply Forall_map, Forall_forall. intros; exact I.
    + intros r. specialize (IH r). rewrite pending_waiting, !app_nil_r in *. exact IH.
  - unfold Channel.step in A. destruct (stack s) as [|[d|d [|f k|p k]|d p [|x rs]] q] eqn:S; try discriminate; injection A as <- <-; cbn [stack].
    + rewrite app_nil_r. split; [|exact IH]. destruct SH as [SH|[(a & b & c & e & SH & _)|(a & b & c & e & g & h & SH & _)]]; try discriminate.
      left. inversion SH. constructor; auto.
    + rewrite app_nil_r. split; [|exact IH]. destruct SH as [SH|[(a & b & c & e & SH & _)|(a & b & c & e & g & h & SH & _ & F)]]; try discriminate.
      * left. now inversion SH.
      * injection SH as -> <- ->. right. left. eauto 10.
    + rewrite app_nil_r. split; [|exact IH]. destruct SH as [SH|[(a & b & c & e & SH & _)|(a & b & c & e & g & h & SH & SI & F)]]; try discriminate.
      * left. inversion SH. constructor; auto.
      * injection SH as -> <- ->. inversion SI. right. right. do 6 eexists. split; [reflexivity|]. auto.
    + destruct SH as [SH|[(a & b & c & e & SH & _)|(a & b & c & e & g & h & SH & SI & F)]]; try discriminate.
      2:{ injection SH as -> <- ->. inversion SI. }
      inversion SH as [|y z Y Z]; subst. split; [right; left; do 4 eexists; split; [reflexivity|constructor; [exact I|exact Z]]|].
      intros r. specialize (IH r). cbn [pending flat_map app] in *. rewrite sent_app, heard_app, meant_app, <- IH.
      fold (pending r q). rewrite pending_calm by exact Z. cbn. now rewrite !app_nil_r.
    + rewrite app_nil_r. split; [|exact IH]. destruct SH as [SH|[(a & b & c & e & SH & F)|(a & b & c & e & g & h & SH & _)]]; try discriminate.
      * inversion SH as [|y z Y Z]. destruct Y.
      * injection SH as -> -> <- ->. now left.
    + destruct SH as [SH|[(a & b & c & e & SH & F)|(a & b & c & e & g & h & SH & _)]]; try discriminate.
      { inversion SH as [|y z Y Z]. destruct Y. }
      injection SH as -> -> <- ->. split; [right; right; do 6 eexists; split; [reflexivity|]; split; [apply Q|exact F]|].
      intros r. specialize (IH r). rewrite sent_app, heard_app. cbn [sent flat_map app]. rewrite app_nil_r. rewrite <- IH.
      cbn [pending flat_map app heard]. rewrite times_cons. destruct (x =? r); cbn [Nat.add repeat]; rewrite ?app_nil_r; [|reflexivity].
      now rewrite <- app_assoc.
Qed.
Lemma heard_in_order m l s o r : discreet receive -> run (start m) l = Some (s, o) -> idle s ->
  heard r o = meant receivers r (sent o).
Proof. intros Q H E. destruct (order_history _ _ _ _ Q H) as [_ K]. specialize (K r). rewrite E in K. now rewrite app_nil_r in K. Qed.
(** At any time, what was heard is a beginning of what was sent. *)
Lemma heard_so_far m l s o r : discreet receive -> run (start m) l = Some (s, o) ->
  exists rest, heard r o ++ rest = meant receivers r (sent o).
Proof. intros Q H. destruct (order_history _ _ _ _ Q H) as [_ K]. eauto. Qed.

(** ** The calls end *)

Notation ends := (ends receivers tick receive).
Definition good (l : list (frame P D)) : Prop := forall m n, ends {| mem := m; stack := l; rssi := n |}.
Lemma good_nil : good [].
Proof. intros m n. constructor. discriminate. Qed.
Lemma good_silent r c l : silent c -> good l -> good (Running r c :: l).
Proof.
  intros S G. induction S as [|f k _ IH]; intros m n; constructor; intros now s' o E; injection E as <- <-; [apply G|apply IH].
Qed.
Lemma good_deliver d p rs l : discreet receive -> good l -> good (Delivering d p rs :: l).
Proof.
  intros Q G. induction rs as [|r rs IH]; intros m n; constructor; intros now s' o E; injection E as <- <-; [apply G|].
  apply good_silent; [apply Q|exact IH].
Qed.
Lemma good_run d c l : discreet receive -> good l -> good (Running d c :: l).
Proof.
  intros Q G. induction c as [|f k IH|p k IH]; intros m n; constructor; intros now s' o E; injection E as <- <-; [apply G|apply IH|].
  now apply good_deliver.
Qed.
Lemma all_good l : discreet receive -> good l.
Proof.
  intros Q. induction l as [|[d|d c|d p rs] l IH]; [apply good_nil| |now apply good_run|now apply good_deliver].
  intros m n. constructor. intros now s' o E. injection E as <- <-. now apply good_run.
Qed.
Lemma always_ends s : discreet receive -> ends s.
Proof. intros Q. destruct s as [m l n]. now apply all_good. Qed.
Lemma goes_on now s : ~ idle s -> exists s' o, step now s = Some (s', o).
Proof.
  unfold idle, Channel.step. destruct (stack s) as [|[d|d [|f k|p k]|d p [|x rs]] q]; [congruence|..]; intros _; do 2 eexists; reflexivity.
Qed.

(** ** Strength *)

Lemma rssi_bound m l s o : run (start m) l = Some (s, o) -> rssi s < 128 /\
  forall r d p n, In (Heard r d p n) o -> (-127 <= n <= 0)%Z.
Proof.
  revert l s o. apply run_ind; [split; [reflexivity|intros r d p n []]|]. intros l s o i s' o' _ [B IH] A.
  assert (NX : forall x, next_rssi x < 128) by (intros x; apply N.mod_lt; discriminate).
  destruct i as [ds|now]; cbn in A.
  - destruct (stack s); [|discriminate]. injection A as <- <-. rewrite app_nil_r. auto.
  - unfold Channel.step in A. destruct (stack s) as [|[d|d [|f k|p k]|d p [|x rs]] q]; try discriminate; injection A as <- <-; cbn [rssi];
      (split; [auto|]); intros r0 d0 p0 n0 K; apply in_app_iff in K as [K|K]; eauto; cbn in K; try contradiction; destruct K as [K|[]]; try discriminate K.
    injection K as <- <- <- <-. unfold strength. specialize (NX (rssi s)). lia.
Qed.
End Proofs.

(** ** The devices of the simulator *)
Section Devices.
Context {P X : Type}.
Variable receivers : N -> list N.
Variable think : N -> X -> P -> Z -> X * list P.
Variable work : N -> Z -> X -> X * list P.
Variable read : N -> Z -> X -> X * option P.
Variable write : N -> X -> P -> X.
Variable advert : list N -> P.
Notation tick := (tick_device work read advert).
Notation receive := (receive_device think write).
Notation step := (step receivers tick receive).
Notation run := (run receivers tick receive).

Lemma devices_discreet : discreet receive.
Proof. intros r p n. constructor. intros x. constructor. Qed.

(** What the device that is ticked has left to send. *)
Inductive left_to_send (d : N) : list (frame P (device P X)) -> list P -> Prop :=
| left_done : left_to_send d [] []
| left_run q c : silent c -> left_to_send d [Running d (emit q c)] q
| left_deliver p rs q c : silent c -> left_to_send d [Delivering d p rs; Running d (emit q c)] q
| left_receive r c' p rs q c : silent c' -> silent c -> left_to_send d [Running r c'; Delivering d p rs; Running d (emit q c)] q.
Lemma left_step d now s s' o q : left_to_send d (stack s) q -> step now s = Some (s', o) ->
  exists q', left_to_send d (stack s') q' /\ map (pair d) q = sent o ++ map (pair d) q'.
Proof.
  intros L S. unfold Channel.step in S. inversion L as [E|q0 c SC E|p rs q0 c SC E|r c' p rs q0 c SI SC E]; subst; rewrite <- E in S.
  - discriminate.
  - destruct q as [|p q]; cbn [emit] in S.
    + inversion SC as [|f k K]; subst; injection S as <- <-; exists []; (split; [|reflexivity]); cbn [stack]; [constructor|]. apply (left_run d []), K.
    + injection S as <- <-. exists q. split; [now constructor|reflexivity].
  - destruct rs as [|r rs]; injection S as <- <-; exists q; (split; [|reflexivity]); cbn [stack]; constructor; auto.
    constructor. intros x. constructor.
  - inversion SI as [|f k K]; subst; injection S as <- <-; exists q; (split; [|reflexivity]); cbn [stack]; constructor; auto.
Qed.
Lemma left_run_all d : forall l s s' o q, left_to_send d (stack s) q -> run s (map Go l) = Some (s', o) -> idle s' ->
  sent o = map (pair d) q.
Proof.
  induction l as [|t l IH]; intros s s' o q L H I; cbn [map Channel.run Channel.act] in H.
  - injection H as <- <-. unfold idle in I. rewrite I in L. inversion L. reflexivity.
  - destruct (step t s) as [[s1 o1]|] eqn:S; [|discriminate]. destruct (run s1 (map Go l)) as [[s2 o2]|] eqn:R; [|discriminate].
    injection H as <- <-. destruct (left_step _ _ _ _ _ _ L S) as (q' & L' & ->). rewrite sent_app. f_equal. eapply IH; eauto.
Qed.
Lemma ticked d s l now s' o : idle s -> run s (Tick [d] :: Go now :: map Go l) = Some (s', o) -> idle s' ->
  sent o = map (pair d) (match mem s d with
                         | Beacon b => if due now b then [advert (address b)] else []
                         | Controller x box => box
                         | Socket x => match snd (read d now x) with Some p => [p] | None => [] end
                         end).
Proof.
  intros I H E. unfold idle in I. cbn [Channel.run Channel.act] in H. rewrite I in H. cbn [map] in H.
  unfold Channel.step at 1 in H. cbn [stack] in H.
  match type of H with context [Channel.run receivers tick receive ?t (map Go l)] => destruct (run t (map Go l)) as [[s2 o2]|] eqn:R; [|discriminate]; set (t0 := t) in R end.
  injection H as <- <-. cbn [app].
  destruct l as [|t l]; cbn [map Channel.run Channel.act] in R.
  { injection R as <- <-. discriminate E. }
  unfold Channel.step in R at 1. cbn [t0 stack tick_device] in R.
  match type of R with context [Channel.run receivers tick receive ?t (map Go l)] => destruct (run t (map Go l)) as [[s3 o3]|] eqn:R2; [|discriminate] end.
  injection R as <- <-. cbn [app]. eapply left_run_all; [|exact R2|exact E]. subst t0. cbn [stack mem].
  destruct (mem s d) as [b|x box|x]; apply left_run; [constructor|constructor; constructor|constructor].
Qed.

(** A controller sends in its next tick, in order, what it gave to the scheduler before. *)
Lemma received_later d x box p n m st r :
  exists m', step 0 {| mem := m; stack := Running d (receive d p n) :: st; rssi := r |} = Some ({| mem := m'; stack := Running d Return :: st; rssi := r |}, [])
  /\ (m d = Controller x box -> m' d = Controller (fst (think d x p n)) (box ++ snd (think d x p n))) /\ (forall e, e <> d -> m' e = m e).
Proof.
  eexists. split; [reflexivity|]. unfold update. rewrite N.eqb_refl. cbn [mem]. split.
  - intros ->. now destruct (think d x p n).
  - intros e NE. apply N.eqb_neq in NE. now rewrite NE.
Qed.

Lemma spaced_from : forall l b pre, (forall x, In x pre -> (x - last b < interval b)%Z) -> spaced (interval b) (last b) (pre ++ l) (beacons_at b l).
Proof.
  induction l as [|t l IH]; intros b pre H; cbn [beacons_at].
  - constructor. now rewrite app_nil_r.
  - destruct (due t b) eqn:E; unfold due in E.
    + constructor; [exact H|lia|]. apply (IH {| address := address b; interval := interval b; last := t |} []). intros x [].
    + replace (pre ++ t :: l) with ((pre ++ [t]) ++ l) by now rewrite <- app_assoc. apply IH.
      intros x K. apply in_app_iff in K as [K|[<-|[]]]; auto. lia.
Qed.
Lemma beacon_spaced b l : spaced (interval b) (last b) l (beacons_at b l).
Proof. apply (spaced_from l b []). intros x []. Qed.

(** ** Beacons on the channel *)
Fixpoint after (b : beacon) (l : list Z) : beacon :=
  match l with
  | [] => b
  | t :: l => after (if due t b then {| address := address b; interval := interval b; last := t |} else b) l
  end.
Lemma after_snoc : forall l b t, after b (l ++ [t]) = (let c := after b l in if due t c then {| address := address c; interval := interval c; last := t |} else c).
Proof. induction l as [|x l IH]; intros b t; [reflexivity|apply IH]. Qed.
Lemma beacons_snoc : forall l b t, beacons_at b (l ++ [t]) = beacons_at b l ++ (if due t (after b l) then [t] else []).
Proof.
  induction l as [|x l IH]; intros b t; [cbn; now destruct (due t b)|]. cbn [app beacons_at after].
  destruct (due x b); [cbn [app]; f_equal|]; apply IH.
Qed.
Lemma after_address : forall l b, address (after b l) = address b.
Proof. induction l as [|t l IH]; intros b; [reflexivity|]. cbn. rewrite IH. now destruct (due t b). Qed.
Lemma ticks_snoc d : forall l s i t o, run s l = Some (t, o) -> ticks_of receivers tick receive d s (l ++ [i]) =
  ticks_of receivers tick receive d s l ++ (match act receivers tick receive t i with Some _ => begins d t i | None => [] end).
Proof.
  induction l as [|x l IH]; intros s i t o H; cbn [app ticks_of Channel.run] in *.
  - injection H as <- <-. destruct (act receivers tick receive s i) as [[s' o']|]; [now rewrite app_nil_r|reflexivity].
  - destruct (act receivers tick receive s x) as [[s' o']|]; [|discriminate]. destruct (run s' l) as [[s2 o2]|] eqn:R; [|discriminate].
    injection H as <- <-. rewrite <- app_assoc. f_equal. eapply IH; eauto.
Qed.
Lemma sent_by_app d (a b : list (event P)) : sent_by d (a ++ b) = sent_by d a ++ sent_by d b.
Proof. apply flat_map_app. Qed.

Definition quiet (d : N) (f : frame P (device P X)) : Prop :=
  match f with Running e c => e = d -> c = Return \/ exists p n, c = receive d p n | _ => True end.
Inductive beacon_inv (d : N) (b : beacon) (T : list Z) (s : state P (device P X)) (o : list P) : Prop :=
| inv_quiet : Forall (quiet d) (stack s) -> mem s d = Beacon (after b T) -> o = map (fun _ => advert (address b)) (beacons_at b T) ->
    beacon_inv d b T s o
| inv_begun T0 now q : T = T0 ++ [now] -> stack s = Running d (tick d now) :: q -> Forall (quiet d) q -> mem s d = Beacon (after b T0) ->
    o = map (fun _ => advert (address b)) (beacons_at b T0) -> beacon_inv d b T s o
| inv_sending q : stack s = Running d (emit [advert (address b)] Return) :: q -> Forall (quiet d) q -> mem s d = Beacon (after b T) ->
    o ++ [advert (address b)] = map (fun _ => advert (address b)) (beacons_at b T) -> beacon_inv d b T s o.

Lemma beacon_history d b m l s o : m d = Beacon b -> run (start m) l = Some (s, o) ->
  beacon_inv d b (ticks_of receivers tick receive d (start m) l) s (sent_by d o).
Proof.
  intros M. revert s o. induction l as [|i l IH] using rev_ind; intros s o H.
  - injection H as <- <-. apply inv_quiet; [constructor|exact M|reflexivity].
  - rewrite run_snoc in H. destruct (run (start m) l) as [[t o1]|] eqn:R; [|discriminate].
    rewrite (ticks_snoc d l _ i _ _ R). specialize (IH _ _ eq_refl).
    destruct (act receivers tick receive t i) as [[t2 o2]|] eqn:A; [|discriminate]. injection H as <- <-. rewrite sent_by_app.
    set (T := ticks_of receivers tick receive d (start m) l) in *. clearbody T. clear R.
    destruct i as [ds|now]; cbn [Channel.act begins] in *.
    + destruct (stack t) eqn:S; [|discriminate]. injection A as <- <-. cbn [sent_by flat_map]. rewrite !app_nil_r.
      destruct IH as [F E O|T0 n q ? S' _ _ _|q S' _ _ _]; try congruence.
      apply inv_quiet; auto. apply Forall_map, Forall_forall. intros; exact I.
    + unfold Channel.step in A. destruct IH as [F E O|T0 n q -> S F E O|q S F E O].
      * destruct (stack t) as [|[e|e [|f k|p k]|e p [|x rs]] q] eqn:S; try discriminate; injection A as <- <-;
          inversion F as [|? ? Q F']; subst; cbn [sent_by flat_map app]; rewrite ?app_nil_r.
        -- destruct (e =? d) eqn:ED; [apply N.eqb_eq in ED as ->; eapply inv_begun; eauto; reflexivity|]. rewrite app_nil_r.
           apply inv_quiet; auto. constructor; [|exact F']. intros ->. now rewrite N.eqb_refl in ED.
        -- apply inv_quiet; auto.
        -- destruct (N.eq_dec e d) as [->|NE].
           ++ destruct (Q eq_refl) as [Q'|(p & n & Q')]; [discriminate|]. injection Q' as -> ->.
              apply inv_quiet; cbn [stack mem]; [constructor; [now left|exact F']| |exact O]. unfold update. rewrite N.eqb_refl, E. reflexivity.
           ++ apply inv_quiet; cbn [stack mem]; [constructor; [intros K; now elim NE|exact F']| |exact O]. unfold update.
              apply not_eq_sym, N.eqb_neq in NE. now rewrite NE.
        -- destruct (N.eq_dec e d) as [->|NE]; [destruct (Q eq_refl) as [Q'|(p' & n & Q')]; discriminate Q'|].
           assert (ED : (e =? d) = false) by now apply N.eqb_neq. rewrite ED, !app_nil_r. apply inv_quiet; auto. cbn [stack].
           constructor; [exact I|]. constructor; [intros K; now elim NE|exact F'].
        -- apply inv_quiet; auto.
        -- apply inv_quiet; auto. cbn [stack]. constructor; [|constructor; [exact I|exact F']]. intros ->. right. eauto.
      * rewrite S in *. cbn [tick_device] in A. injection A as <- <-. cbn [sent_by flat_map]. rewrite !app_nil_r, E.
        destruct (due n (after b T0)) eqn:DU.
        -- eapply inv_sending; cbn [stack mem]; [now rewrite after_address|exact F| |].
           ++ unfold update. rewrite N.eqb_refl, E, DU, after_snoc. cbn zeta. now rewrite DU.
           ++ rewrite beacons_snoc, DU, map_app, O. reflexivity.
        -- apply inv_quiet; cbn [stack mem]; [constructor; [now left|exact F]| |].
           ++ unfold update. rewrite N.eqb_refl, E, DU, after_snoc. cbn zeta. now rewrite DU.
           ++ rewrite beacons_snoc, DU, app_nil_r. exact O.
      * rewrite S in *. cbn [emit] in A. injection A as <- <-. cbn [sent_by flat_map]. rewrite N.eqb_refl. cbn [app]. rewrite app_nil_r.
        apply inv_quiet; cbn [stack mem]; [constructor; [exact I|constructor; [now left|exact F]]|exact E|exact O].
Qed.
Lemma beacon_sends d b m l s o : m d = Beacon b -> run (start m) l = Some (s, o) -> idle s ->
  exists times, spaced (interval b) (last b) (ticks_of receivers tick receive d (start m) l) times
  /\ sent_by d o = map (fun _ => advert (address b)) times.
Proof.
  intros M H E. exists (beacons_at b (ticks_of receivers tick receive d (start m) l)). split; [apply beacon_spaced|].
  unfold idle in E. destruct (beacon_history _ _ _ _ _ _ M H) as [_ _ K|? ? ? _ K|? K]; congruence.
Qed.

(** ** The packets of a controller *)
Lemma worked d x box now m st r :
  exists m', step 0 {| mem := m; stack := Running d (after_tick work d now) :: st; rssi := r |} = Some ({| mem := m'; stack := Running d Return :: st; rssi := r |}, [])
  /\ (m d = Controller x box -> m' d = Controller (fst (work d now x)) (box ++ snd (work d now x))) /\ (forall e, e <> d -> m' e = m e).
Proof.
  eexists. split; [reflexivity|]. unfold update. rewrite N.eqb_refl. cbn [mem]. split.
  - intros ->. reflexivity.
  - intros e NE. apply N.eqb_neq in NE. now rewrite NE.
Qed.
Lemma given_snoc d : forall l s i t o, run s l = Some (t, o) -> given receivers tick receive d s (l ++ [i]) =
  given receivers tick receive d s l ++ (match act receivers tick receive t i with Some _ => gives d t i | None => [] end).
Proof.
  induction l as [|x l IH]; intros s i t o H; cbn [app given Channel.run] in *.
  - injection H as <- <-. destruct (act receivers tick receive s i) as [[s' o']|]; [now rewrite app_nil_r|reflexivity].
  - destruct (act receivers tick receive s x) as [[s' o']|]; [|discriminate]. destruct (run s' l) as [[s2 o2]|] eqn:R; [|discriminate].
    injection H as <- <-. rewrite <- app_assoc. f_equal. eapply IH; eauto.
Qed.
Lemma skipn_app_length {A} (a b : list A) : skipn (List.length a) (a ++ b) = b.
Proof. induction a; auto. Qed.

Definition tail_of (d : N) (c : prog P (device P X)) : Prop := c = Return \/ exists now, c = after_tick work d now.
(** The shape of the stack, and what [d] has left to send of what it took from its box. *)
Inductive shape (d : N) : list (frame P (device P X)) -> list P -> Prop :=
| shape_wait l : shape d (map Waiting l) []
| shape_tick e now l : shape d (Running e (tick e now) :: map Waiting l) []
| shape_run e q c l : tail_of e c -> shape d (Running e (emit q c) :: map Waiting l) (if e =? d then q else [])
| shape_deliver e p rs q c l : tail_of e c -> shape d (Delivering e p rs :: Running e (emit q c) :: map Waiting l) (if e =? d then q else [])
| shape_receive r e p p' n rs q c l : tail_of e c ->
    shape d (Running r (receive r p' n) :: Delivering e p rs :: Running e (emit q c) :: map Waiting l) (if e =? d then q else [])
| shape_received r e p rs q c l : tail_of e c ->
    shape d (Running r Return :: Delivering e p rs :: Running e (emit q c) :: map Waiting l) (if e =? d then q else []).

Lemma controller_history d x m l s o : m d = Controller x [] -> run (start m) l = Some (s, o) ->
  exists q y box, shape d (stack s) q /\ mem s d = Controller y box /\ sent_by d o ++ q ++ box = given receivers tick receive d (start m) l.
Proof.
  intros M. revert s o. induction l as [|i l IH] using rev_ind; intros s o H.
  - injection H as <- <-. exists [], x, []. split; [apply (shape_wait d [])|]. split; [exact M|reflexivity].
  - rewrite run_snoc in H. destruct (run (start m) l) as [[t o1]|] eqn:R; [|discriminate].
    rewrite (given_snoc d l _ i _ _ R). specialize (IH _ _ eq_refl). destruct IH as (q & y & box & SH & E & G). rewrite <- G.
    destruct (act receivers tick receive t i) as [[t2 o2]|] eqn:A; [|discriminate]. injection H as <- <-. rewrite sent_by_app.
    clear R G M. destruct i as [ds|now]; cbn [Channel.act gives] in *.
    + destruct (stack t) eqn:S; [|discriminate]. injection A as <- <-. exists q, y, box. split.
      { inversion SH as [l0 Q K|e now l0 Q K|e q0 c l0 TT Q K|e p rs q0 c l0 TT Q K|r e p p' n rs q0 c l0 TT Q K|r e p rs q0 c l0 TT Q K]; subst. cbn [stack]. constructor. }
      split; [exact E|]. cbn [sent_by flat_map]. now rewrite !app_nil_r.
    + unfold Channel.step in A.
      inversion SH as [l0 S Q|e n0 l0 S Q|e q0 c l0 TT S Q|e p rs q0 c l0 TT S Q|r e p p' n rs q0 c l0 TT S Q|r e p rs q0 c l0 TT S Q]; subst q; rewrite <- S in *; clear SH.
      * destruct l0 as [|e l0]; [discriminate|]. injection A as <- <-. exists [], y, box. split; [constructor|]. split; [exact E|].
        cbn. now rewrite !app_nil_r.
      * injection A as <- <-. cbn [stack mem sent_by flat_map app tick_device]. rewrite app_nil_r. unfold update.
        destruct (e =? d) eqn:ED.
        -- apply N.eqb_eq in ED as ->. rewrite N.eqb_refl, E. exists box, y, []. split.
           { generalize (shape_run d d box (after_tick work d n0) l0 (or_intror (ex_intro _ n0 eq_refl))). now rewrite N.eqb_refl. }
           split; [reflexivity|]. cbv beta iota delta [waits]. rewrite skipn_nil, !app_nil_r. reflexivity.
        -- exists [], y, box. rewrite N.eqb_sym, ED. split.
           { destruct (mem t e) as [b|x0 box0|x0].
             - generalize (shape_run d e (if due n0 b then [advert (address b)] else []) Return l0 (or_introl eq_refl)). now rewrite ED.
             - generalize (shape_run d e box0 (after_tick work e n0) l0 (or_intror (ex_intro _ n0 eq_refl))). now rewrite ED.
             - generalize (shape_run d e (match snd (read e n0 x0) with Some p => [p] | None => [] end) Return l0 (or_introl eq_refl)). now rewrite ED. }
           split; [exact E|]. now rewrite app_nil_r.
      * destruct q0 as [|p q0]; cbn [emit] in A.
        -- destruct TT as [-> | [n ->]].
           ++ injection A as <- <-. exists [], y, box. cbn. split; [constructor|]. split; [exact E|]. destruct (e =? d); cbn; now rewrite !app_nil_r.
           ++ injection A as <- <-. cbn [emit stack mem sent_by flat_map app after_tick]. rewrite app_nil_r. unfold update.
              destruct (e =? d) eqn:ED.
              ** apply N.eqb_eq in ED as ->. rewrite N.eqb_refl, E. exists [], (fst (work d n y)), (box ++ snd (work d n y)). split.
                 { generalize (shape_run d d [] Return l0 (or_introl eq_refl)). now rewrite N.eqb_refl. }
                 split; [reflexivity|]. cbn [waits app]. now rewrite skipn_app_length, app_assoc.
              ** exists [], y, box. rewrite N.eqb_sym, ED. split.
                 { generalize (shape_run d e [] Return l0 (or_introl eq_refl)). now rewrite ED. }
                 split; [exact E|]. now rewrite app_nil_r.
        -- injection A as <- <-. exists (if e =? d then q0 else []), y, box. cbn [stack mem]. split; [now constructor|]. split; [exact E|].
           cbn [emit sent_by flat_map]. destruct (e =? d); rewrite ?app_nil_r; [|reflexivity]. cbn [app]. now rewrite <- app_assoc.
      * destruct rs as [|r rs]; injection A as <- <-; exists (if e =? d then q0 else []), y, box; cbn [stack mem sent_by flat_map]; (split; [now constructor|]);
          (split; [exact E|]); now rewrite !app_nil_r.
      * injection A as <- <-. cbn [stack mem sent_by flat_map receive_device]. rewrite app_nil_r. unfold update. destruct (r =? d) eqn:RD.
        -- apply N.eqb_eq in RD as ->. rewrite N.eqb_refl, E. destruct (think d y p' n) as [y2 out] eqn:TH. exists (if e =? d then q0 else []), y2, (box ++ out).
           split; [now constructor|]. split; [reflexivity|]. cbn [waits]. now rewrite skipn_app_length, !app_assoc.
        -- exists (if e =? d then q0 else []), y, box. rewrite (N.eqb_sym d r), RD. split; [now constructor|]. split; [exact E|]. now rewrite app_nil_r.
      * injection A as <- <-. exists (if e =? d then q0 else []), y, box. cbn [stack mem sent_by flat_map]. split; [now constructor|].
        split; [exact E|]. now rewrite !app_nil_r.
Qed.
Lemma controller_sends d x m l s o : m d = Controller x [] -> run (start m) l = Some (s, o) -> idle s ->
  exists y box, mem s d = Controller y box /\ sent_by d o ++ box = given receivers tick receive d (start m) l.
Proof.
  intros M H I. destruct (controller_history _ _ _ _ _ _ M H) as (q & y & box & SH & E & G). exists y, box. split; [exact E|].
  rewrite I in SH. inversion SH; subst q. exact G.
Qed.
End Devices.
