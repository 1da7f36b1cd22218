(** The number of advertising packets, and legacy advertising: proofs. *)
From Verif Require Import Prelude Address Rpa Table LeTypes LeAdvertise LeLists LeScan LeInitiate LeHost LeTac LeFrame LeStep LeSets LeOutputs LeHistory.
From Verif Require Import LeListsSpec LeListsProofs LeAdvertSpec LeAdvertProofs LeAdvertSends LeFilterSpec LeFilterMore LeFilterAdv LeTimeSpec LeTime.
Open Scope N_scope.

(** * Sums over tables *)

Section Sums.
Variable A : Type.
Variable f : A -> N.
Definition at_key (m : table A) (x : N) : N := match lookup m x with Some a => f a | None => 0 end.
Definition sum (m : table A) : N := fold_right (fun e n => f (snd e) + n) 0 m.
Definition sum_keys (g : N -> N) (l : list N) : N := fold_right (fun x n => g x + n) 0 l.

Lemma sum_erase m x : at_key m x + sum (erase m x) <= sum m.
Proof.
  unfold at_key. induction m as [|[k a] m IH]; [apply N.le_refl|]. cbn [sum fold_right lookup].
  unfold erase in *. cbn [filter fst]. destruct (k =? x) eqn:E; cbn [negb].
  - fold (sum m). cbn [snd]. enough (sum (filter (fun e => negb (fst e =? x)) m) <= sum m) by lia.
    clear. induction m as [|[k a] m IH]; cbn [filter sum fold_right]; [lia|]. cbn [fst]. destruct (negb _); cbn [sum fold_right]; fold (sum m); fold (sum (filter (fun e => negb (fst e =? x)) m)); lia.
  - cbn [sum fold_right snd]. fold (sum m). fold (sum (filter (fun e => negb (fst e =? x)) m)). lia.
Qed.
Lemma sum_keys_le l : forall m, NoDup l -> sum_keys (at_key m) l <= sum m.
Proof.
  induction l as [|x l IH]; intros m ND; cbn [sum_keys fold_right]; [lia|]. inversion ND as [|? ? N1 N2]; subst.
  fold (sum_keys (at_key m) l). pose proof (sum_erase m x). specialize (IH (erase m x) N2).
  enough (E : sum_keys (at_key m) l = sum_keys (at_key (erase m x)) l) by lia.
  clear IH N2 H ND. induction l as [|y l IH]; cbn [sum_keys fold_right]; [reflexivity|].
  fold (sum_keys (at_key m) l). fold (sum_keys (at_key (erase m x)) l). rewrite IH by (intros I; apply N1; now right).
  f_equal. unfold at_key. rewrite lookup_erase. destruct (N.eqb_spec y x) as [->|]; [elim N1; now left|reflexivity].
Qed.
Lemma sum_is_keys m : NoDup (keys m) -> sum m = sum_keys (at_key m) (keys m).
Proof.
  unfold keys. induction m as [|[k a] m IH]; cbn [map fst sum fold_right sum_keys]; intros ND; [reflexivity|].
  inversion ND as [|? ? N1 N2]; subst. fold (sum m). fold (sum_keys (at_key ((k, a) :: m)) (map fst m)). rewrite (IH N2). cbn [snd].
  f_equal; [unfold at_key; cbn [lookup]; now rewrite N.eqb_refl|].
  clear IH N2 ND. revert N1. generalize (map fst m) as l. induction l as [|y l IH]; cbn [sum_keys fold_right]; intros N1; [reflexivity|].
  fold (sum_keys (at_key m) l). fold (sum_keys (at_key ((k, a) :: m)) l). rewrite IH by (intros I; apply N1; now right). f_equal.
  unfold at_key. cbn [lookup]. destruct (N.eqb_spec k y) as [->|]; [elim N1; now left|reflexivity].
Qed.
Lemma sum_change m m' g : NoDup (keys m') -> (forall x, at_key m' x <= at_key m x + g x) ->
  sum m' <= sum m + sum_keys g (keys m').
Proof.
  intros ND H. rewrite (sum_is_keys m' ND). pose proof (sum_keys_le (keys m') m ND).
  enough (sum_keys (at_key m') (keys m') <= sum_keys (at_key m) (keys m') + sum_keys g (keys m')) by lia.
  generalize (keys m') as l. induction l as [|y l IH]; cbn [sum_keys fold_right]; [lia|]. specialize (H y).
  fold (sum_keys (at_key m) l). fold (sum_keys (at_key m') l). fold (sum_keys g l). lia.
Qed.
End Sums.
Arguments at_key {A}. Arguments sum {A}.

(** The events asked for the set [x] by a command *)
Definition asked_for (l : list enabled_set) (x : N) : N := asked (filter (fun e => en_handle e =? x) l).
Lemma asked_keys l ks : NoDup ks -> sum_keys (asked_for l) ks <= asked l.
Proof.
  intros ND. induction l as [|e l IH].
  - enough (sum_keys (asked_for []) ks = 0) by (cbn [asked fold_right]; lia). clear. induction ks; cbn [sum_keys fold_right]; [reflexivity|]. exact IHks.
  - cbn [asked fold_right]. fold (asked l).
    enough (sum_keys (asked_for (e :: l)) ks <= en_max e + sum_keys (asked_for l) ks) by lia. clear IH.
    induction ks as [|y ks IH]; cbn [sum_keys fold_right]; [lia|]. inversion ND as [|? ? N1 N2]; subst.
    fold (sum_keys (asked_for (e :: l)) ks). fold (sum_keys (asked_for l) ks). specialize (IH N2).
    assert (E : asked_for (e :: l) y = (if en_handle e =? y then en_max e else 0) + asked_for l y)
      by (unfold asked_for; cbn [filter]; destruct (en_handle e =? y); reflexivity).
    rewrite E. destruct (N.eqb_spec (en_handle e) y) as [Q|Q]; [|lia].
    enough (sum_keys (asked_for (e :: l)) ks = sum_keys (asked_for l) ks) by lia. subst y. clear - N1.
    induction ks as [|z ks IH]; cbn [sum_keys fold_right]; [reflexivity|].
    fold (sum_keys (asked_for (e :: l)) ks). fold (sum_keys (asked_for l) ks). rewrite IH by (intros I; apply N1; now right). f_equal.
    unfold asked_for. cbn [filter]. destruct (N.eqb_spec (en_handle e) z) as [<-|]; [elim N1; now left|reflexivity].
Qed.
Lemma asked_in e l : In e l -> en_max e <= asked_for l (en_handle e).
Proof.
  unfold asked_for. induction l as [|d l IH]; intros I; [destruct I|]. cbn [filter]. destruct I as [->|I].
  - rewrite N.eqb_refl. cbn [asked fold_right]. lia.
  - specialize (IH I). destruct (_ =? _); [|exact IH]. cbn [asked fold_right]. fold (asked (filter (fun e0 => en_handle e0 =? en_handle e) l)). lia.
Qed.

(** * Packets *)

Lemma adverts_app a b : adverts (a ++ b) = adverts a + adverts b.
Proof. unfold adverts, lenN. rewrite filter_app, app_length. lia. Qed.
Lemma adverts_none o : (forall p, ~ In (Sent p) o) -> adverts o = 0.
Proof.
  intros H. unfold adverts. induction o as [|x o IH]; [reflexivity|]. cbn [filter]. rewrite (IH (fun p I => H p (or_intror I))) || idtac.
  destruct x as [p|e]; [elim (H p); now left|]. cbn [is_advert]. apply IH. intros p I. apply (H p). now right.
Qed.

(** The packets a set may still send *)
Definition left (a : adv_set) : N := if enabled a then max_events a - num_events a else 0.

Lemma advertise_set_left s now a a' o : advertise_set s now a = Some (a', o) -> (enabled a = true -> 0 < max_events a <= 255) ->
  adverts o + left a' <= left a.
Proof.
  unfold advertise_set. intros H OK. destruct (set_timeout s now a) as [a1 o1] eqn:E1. destruct (set_limit s a1) as [a2 o2] eqn:E2.
  destruct (set_advertise now a2) as [[a3 o3]|] eqn:E3; [|discriminate]. destruct (set_periodic now a3) as [a4 o4] eqn:E4. injection H as <- <-.
  rewrite !adverts_app.
  assert (X4 : adverts o4 = 0 /\ left a4 = left a3).
  { unfold set_periodic in E4. destruct (_ && _) in E4; injection E4 as <- <-; split; reflexivity. }
  assert (X1 : adverts o1 = 0 /\ left a1 <= left a /\ (enabled a1 = true -> a1 = a)).
  { unfold set_timeout in E1. destruct (timeout a); [destruct (_ && _) in E1|]; injection E1 as <- <-; try (split; [reflexivity|split; [lia|auto]]).
    split; [|split; [unfold left; cbn; lia|discriminate]]. apply adverts_none. intros p I. apply in_app_iff in I as [I|I];
      repeat match type of I with In _ (if ?b then _ else _) => destruct b end; cbn in I; intuition congruence. }
  assert (X2 : adverts o2 = 0 /\ left a2 <= left a1 /\ (enabled a2 = true -> a2 = a1 /\ (max_events a1 <> 0 -> num_events a1 < max_events a1))).
  { unfold set_limit in E2. destruct (enabled a1) eqn:N1; cbn [andb] in E2.
    - destruct (_ && _) eqn:C in E2; injection E2 as <- <-.
      + split; [|split; [unfold left; cbn; lia|discriminate]]. apply adverts_none. intros p I. destruct (le_event_unmasked _ _) in I; cbn in I; intuition congruence.
      + split; [reflexivity|]. split; [lia|]. intros _. split; [reflexivity|]. intros NZ. apply N.eqb_neq in NZ. rewrite NZ in C. cbn [negb andb] in C. now apply N.leb_gt.
    - injection E2 as <- <-. split; [reflexivity|]. split; [lia|]. congruence. }
  assert (X3 : adverts o3 + left a3 <= left a2).
  { unfold set_advertise in E3. destruct (enabled a2) eqn:N2; cbn [andb] in E3; [|injection E3 as <- <-; change (adverts []) with 0; lia].
    destruct (_ <=? now) in E3; [|injection E3 as <- <-; change (adverts []) with 0; lia].
    destruct X2 as (_ & _ & X2). destruct (X2 eq_refl) as [-> LT]. destruct X1 as (_ & _ & X1). pose proof (X1 N2) as Q. subst a1.
    destruct (OK N2) as [O1 O2]. assert (LT' : num_events a < max_events a) by (apply LT; lia).
    assert (F : forall a3 p, a3 = with_num_events ((num_events a + 1) mod 256) (with_next_event (next_event a + interval a * 625) a) -> is_advert (Sent p) = true -> adverts [Sent p] + left a3 <= left a).
    { intros b p -> IS. unfold adverts, left. cbn [filter]. rewrite IS. le_simpl. rewrite N2. rewrite N.mod_small by lia. change (lenN [Sent p]) with 1. lia. }
    destruct (legacy_pdus _) in E3; [destruct (set_legacy_pdu _) in E3; [|discriminate]|]; injection E3 as <- <-; now apply F. }
  destruct X4 as [-> ->]. destruct X1 as (-> & X1 & _). destruct X2 as (-> & X2 & _). lia.
Qed.

Lemma advertise_sets_left s now m : forall m' o, advertise_sets s now m = Some (m', o) ->
  (forall x a, In (x, a) m -> enabled a = true -> 0 < max_events a <= 255) -> adverts o + sum left m' <= sum left m.
Proof.
  induction m as [|[k a] m IH]; cbn [advertise_sets]; intros m' o H OK; [injection H as <- <-; apply N.le_refl|].
  destruct (advertise_set s now a) as [[a1 o1]|] eqn:E; [|discriminate]. destruct (advertise_sets s now m) as [[m1 o2]|] eqn:M; [|discriminate].
  injection H as <- <-. specialize (IH _ _ eq_refl (fun x b I => OK x b (or_intror I))).
  apply advertise_set_left in E; [|exact (OK k a (or_introl eq_refl))]. rewrite adverts_app. cbn [sum fold_right snd].
  fold (sum left m1). fold (sum left m). lia.
Qed.

Section WithController.
Variable aes : list N -> list N -> list N.
Variable rng : N -> N.
Variable cfg : config.
Notation step := (step aes rng cfg).
Notation history := (history aes rng cfg).

Lemma legacy_never h s : history h s -> (forall e, In e h -> limited e) -> l_enabled (legacy s) = false.
Proof.
  induction 1 as [addr|h s now o s' st out H IH S]; intros LIM; [reflexivity|].
  specialize (IH (fun e I => LIM e (or_intror I))). specialize (LIM _ (or_introl eq_refl)). unfold limited in LIM. cbn [what] in LIM.
  destruct (touches o PLegacy) eqn:T; [|pose proof (step_same _ _ _ _ _ _ _ _ _ S PLegacy T) as E; cbn [same] in E; now rewrite E].
  destruct o as [c|p|].
  - destruct c; try discriminate; try contradiction.
    + cbn [LeHost.step run_command] in S. unfold reset, loud in S. ok S. reflexivity.
    + cbn [LeHost.step] in S. unfold_step S. crack S; ok S; le_simpl; auto.
    + cbn [LeHost.step] in S. unfold_step S. destruct (extended_used s); ok S; le_simpl; auto.
    + cbn [LeHost.step] in S. unfold_step S. destruct (extended_used s); ok S; le_simpl; auto.
  - destruct p; try discriminate. cbn [LeHost.step receive] in S. unfold of_effect, receive_connect, legacy_connect_request in S.
    rewrite IH in S. cbn [andb negb] in S. destruct (sets_connect_request _ _ _ _ _ _ _ _) as [s1 o1| |] eqn:E; try discriminate. ok S.
    apply sets_connect_request_frame in E as [(l & -> & _)|(l & h' & a & c & last & ia & -> & _)]; le_simpl; exact IH.
  - destruct (tick_legacy _ _ _ _ _ _ _ _ S) as (e & n & -> & E). le_simpl. destruct e; [|reflexivity]. specialize (E eq_refl). congruence.
Qed.

Lemma enabled_limited h s : history h s -> (forall e, In e h -> limited e) -> forall x t d, enabled_by x h = Some (t, d) -> 0 < en_max d <= 255.
Proof.
  intros _. induction h as [|e h IH]; intros LIM x t d; cbn [enabled_by]; [discriminate|].
  specialize (IH (fun e I => LIM e (or_intror I)) x t d). specialize (LIM e (or_introl eq_refl)). unfold limited in LIM.
  destruct (what e) as [c|p|]; try exact IH. destruct c; try exact IH; [discriminate|]. destruct on; [|exact IH].
  destruct (status_of e) as [[]|]; try exact IH. destruct (find _ l) as [d'|] eqn:F; [|exact IH]. intros [= _ <-]. apply find_some in F as [F _]. now apply LIM.
Qed.

Lemma no_adverts now s o s' st out : step now s o = Ok s' st out -> o <> Tick -> adverts out = 0.
Proof.
  intros S NT. pose proof (step_fine _ _ _ _ _ _ _ _ _ S) as F. unfold adverts. 
  assert (X : filter is_advert out = []).
  { clear S. induction F as [|x l M F IH]; [reflexivity|]. cbn [filter]. destruct (is_advert x) eqn:I; [|exact IH]. exfalso.
    destruct x as [[]|e]; try discriminate I; cbn [fine] in M; destruct o as [[]|[]|]; try discriminate M; now elim NT. }
  now rewrite X.
Qed.

Theorem events_limited h s : history h s -> (forall e, In e h -> limited e) -> adverts_sent h + sum left (sets s) <= events_asked h.
Proof.
  induction 1 as [addr|h s now o s' st out H IH S]; intros LIM; [apply N.le_refl|].
  pose proof (legacy_never _ _ H (fun e I => LIM e (or_intror I))) as LG.
  pose proof (enabled_limited _ _ H (fun e I => LIM e (or_intror I))) as EL.
  specialize (IH (fun e I => LIM e (or_intror I))). cbn [adverts_sent events_asked sent what status_of].
  pose proof (next_step _ _ _ _ _ _ _ _ _ _ H S) as H'. pose proof (sets_nodup _ _ _ _ _ H') as ND'.
  pose proof (fun x => step_changes _ _ _ _ _ _ _ _ _ S (sets_nodup _ _ _ _ _ H) x) as C.
  assert (T : o = Tick \/ o <> Tick) by (destruct o as [[]|[]|]; auto; right; discriminate). destruct T as [->|NT].
  - destruct (tick_parts _ _ _ _ _ _ _ _ S) as (o1 & o2 & o3 & o4 & -> & A & N1 & N2 & N4). rewrite (N2 LG). rewrite !adverts_app.
    rewrite (adverts_none _ N1), (adverts_none _ N4). apply advertise_sets_left in A; [change (adverts []) with 0; lia|].
    intros x a I EN. pose proof (in_lookup_nodup _ _ _ (sets_nodup _ _ _ _ _ H) I) as L.
    destruct (enabled_timed _ _ _ _ _ H x a L EN) as (t & d & D & _ & ->). exact (EL _ _ _ D).
  - rewrite (no_adverts _ _ _ _ _ _ S NT).
    pose (g := match o, st with Command (SetExtEnable true l), Some SUCCESS => asked_for l | _, _ => fun _ => 0 end).
    assert (G : sum_keys g (keys (sets s')) <= match o, st with Command (SetExtEnable true l), Some SUCCESS => asked l | _, _ => 0 end).
    { assert (Z : sum_keys (fun _ => 0) (keys (sets s')) <= 0) by (clear; induction (keys (sets s')); cbn; auto; lia).
      unfold g. destruct o as [[]|p|]; try exact Z. destruct on; [|exact Z]. destruct st as [[]|]; try exact Z. now apply asked_keys. }
    enough (sum left (sets s') <= sum left (sets s) + sum_keys g (keys (sets s'))) by lia.
    apply sum_change; [exact ND'|]. intros x. specialize (C x). unfold at_key. subst g. clear G ND' H' IH S H LIM EL.
    destruct C; try (cbn; lia); try (destruct o; cbn; lia); try now elim NT.
    all: try (unfold left; le_simpl; lia).
    + destruct H0 as (EN & _). unfold left, apply_params. le_simpl. rewrite EN. lia.
    + unfold left, disable_periodic. le_simpl. lia.
    + unfold left, enable_periodic. le_simpl. lia.
    + unfold left, new_addresses. le_simpl. lia.
    + match goal with I : In _ _ |- _ => apply asked_in in I; revert I end. subst. unfold left, started, enable_set, new_addresses. le_simpl. lia.
Qed.

Theorem events_bounded h s : history h s -> (forall e, In e h -> limited e) -> adverts_sent h <= events_asked h.
Proof. intros H L. pose proof (events_limited h s H L). lia. Qed.

(** * Legacy advertising *)

Lemma tick_legacy_timeout now s s' st out : step now s Tick = Ok s' st out ->
  l_timeout (legacy s') = l_timeout (legacy s) /\
  l_enabled (legacy s') = l_enabled (legacy s) && negb (match l_timeout (legacy s) with Some t => t <=? now | None => false end)
  /\ (l_enabled (legacy s) = true -> l_enabled (legacy s') = false -> le_event_unmasked s 1 = true -> In (Notified timeout_complete) out).
Proof.
  intros H. cbn [LeHost.step] in H. unfold tick, le_advertising in H.
  destruct (legacy_timeout now s) as [s1 o1] eqn:E1. destruct (legacy_advertise now s1) as [s2 o2] eqn:E2.
  destruct (advertise_sets _ _ _) as [[m o3]|]; [|discriminate].
  destruct (le_scanning now _) as [s3 o4] eqn:S. apply le_scanning_frame in S as [sc ->]. injection H as <- <- <-.
  assert (L2 : l_timeout (legacy s2) = l_timeout (legacy s1) /\ l_enabled (legacy s2) = l_enabled (legacy s1)).
  { unfold legacy_advertise in E2. destruct (_ && _) in E2; [destruct (legacy_pdu_of _) in E2|]; injection E2 as <- <-; split; reflexivity. }
  le_simpl. destruct L2 as [-> ->]. unfold legacy_timeout in E1.
  destruct (l_timeout (legacy s)) as [t|] eqn:T; [destruct (l_enabled (legacy s)) eqn:EN; cbn [andb] in E1; [destruct (t <=? now) eqn:LE|]|];
    injection E1 as <- <-; le_simpl; rewrite ?T, ?EN, ?andb_false_r, ?andb_true_r; repeat split; try reflexivity; try congruence; try tauto.
  intros _ _ ->. rewrite !in_app_iff. repeat left. reflexivity.
Qed.

Lemma legacy_timed h s : history h s -> l_enabled (legacy s) = true -> exists t, legacy_enabled_at h = Some t /\
  l_timeout (legacy s) = match fst (fst (legacy_given h)) with ADV_DIRECT_IND_HIGH => Some (t + 1280000) | _ => None end.
Proof.
  induction 1 as [addr|h s now o s' st out H IH S]; intros EN; [discriminate|].
  pose proof (legacy_given_history _ _ _ _ _ (next_step _ _ _ _ _ _ _ _ _ _ H S)) as G'.
  pose proof (legacy_given_history _ _ _ _ _ H) as G. rewrite G'. rewrite G in IH. unfold legacy_is in *. cbn [fst] in *. clear G G'.
  cbn [legacy_enabled_at what status_of at_time].
  destruct (touches o PLegacy) eqn:T.
  2:{ pose proof (step_same _ _ _ _ _ _ _ _ _ S PLegacy T) as E. cbn [same] in E. rewrite E in *. destruct (IH EN) as (t & A & B). exists t.
      split; [|exact B]. destruct o as [[]|p|]; try discriminate T; exact A. }
  destruct o as [c|p|].
  - destruct c; try discriminate T.
    + cbn [LeHost.step run_command] in S. unfold reset, loud in S. ok S. discriminate EN.
    + cbn [LeHost.step] in S. unfold_step S. crack S; ok S; le_simpl_in EN; try (le_simpl_all; congruence); destruct (IH EN) as (tt & A & B); exists tt; split; auto.
    + cbn [LeHost.step] in S. unfold_step S. destruct (extended_used s); ok S; le_simpl_in EN; destruct (IH EN) as (tt & A & B); exists tt; split; auto.
    + cbn [LeHost.step] in S. unfold_step S. destruct (extended_used s); ok S; le_simpl_in EN; destruct (IH EN) as (tt & A & B); exists tt; split; auto.
    + cbn [LeHost.step run_command] in S. unfold quiet, set_adv_enable, select_legacy in S.
      destruct (extended_used s) in S; [ok S; destruct (IH EN) as (tt & A & B); exists tt; split; [destruct on|]; auto|].
      destruct on; cbn [negb] in S; [|ok S; discriminate EN].
      destruct (generate _ _ _ _ _) as [s1 r1] eqn:G1 in S. apply generate_frame in G1 as (l1 & p1 & -> & _).
      destruct (choose_own _ _ _ _) in S; [|ok S; le_simpl_in EN; le_simpl; destruct (IH EN) as (tt & A & B); exists tt; split; auto].
      cbv zeta in S. le_simpl_in S. exists now.
      destruct (l_type (legacy s)) eqn:TY; try (destruct (generate _ _ _ _ _) as [s2 r2] eqn:G2 in S; apply generate_frame in G2 as (l2 & p2 & -> & _));
        ok S; le_simpl; rewrite TY; split; reflexivity.
  - destruct p; try discriminate T. cbn [LeHost.step receive] in S. unfold of_effect, receive_connect, legacy_connect_request in S.
    crack S; try discriminate; repeat match goal with E : inl _ = inl _ |- _ => injection E as <- | E : inr _ = inr _ |- _ => injection E as <- end.
    all: try discriminate.
    all: try ok S. all: repeat match goal with E : Next _ _ = Next _ _ |- _ => injection E as <- <- end.
    all: frames; le_simpl; le_simpl_all; auto; discriminate.
  - destruct (tick_legacy_timeout _ _ _ _ _ S) as (A & B & _). destruct (tick_legacy _ _ _ _ _ _ _ _ S) as (e & n & E & _).
    rewrite A. rewrite B in EN. apply andb_true_iff in EN as [EN _]. rewrite E. le_simpl. exact (IH EN).
Qed.

Theorem high_duty_stops now st out h s : history (Entry now Tick st out :: h) s -> l_enabled (legacy s) = true ->
  fst (fst (legacy_given h)) = ADV_DIRECT_IND_HIGH -> exists t, legacy_enabled_at h = Some t /\ now < t + 1280000.
Proof.
  intros H EN G. inversion H as [|? s0 ? ? ? ? ? H0 S]; subst.
  destruct (tick_legacy_timeout _ _ _ _ _ S) as (A & B & _). rewrite B in EN. apply andb_true_iff in EN as [EN C].
  destruct (legacy_timed _ _ H0 EN) as (t & D & E). rewrite G in E. rewrite E in C. exists t. split; [exact D|].
  apply negb_true_iff, N.leb_gt in C. exact C.
Qed.
Theorem legacy_goes_on now st out h s0 s : history h s0 -> step now s0 Tick = Ok s st out -> l_enabled (legacy s0) = true -> l_enabled (legacy s) = false ->
  fst (fst (legacy_given h)) = ADV_DIRECT_IND_HIGH
  /\ (exists t, legacy_enabled_at h = Some t /\ t + 1280000 <= now)
  /\ (unmasked s0 timeout_complete -> In (Notified timeout_complete) out).
Proof.
  intros H0 S EN DIS. destruct (tick_legacy_timeout _ _ _ _ _ S) as (A & B & C). rewrite DIS, EN in B. cbn [andb] in B. symmetry in B. apply negb_false_iff in B.
  destruct (legacy_timed _ _ H0 EN) as (t & D & E). rewrite E in B.
  destruct (fst (fst (legacy_given h))); try discriminate B. apply N.leb_le in B. repeat split; eauto.
Qed.
End WithController.
