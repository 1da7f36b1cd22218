(** The two ends of a stream. *)
From Verif Require Import Prelude Table Iso IsoSpec IsoProofs IsoMore IsoLife IsoSafe IsoParams IsoEnd.
Open Scope N_scope.
Ltac Zify.zify_post_hook ::= Z.div_mod_to_equations.

Definition b2n (b : bool) : nat := if b then 1%nat else 0%nat.
Definition cnt (P : cis -> bool) (m : table cis) : nat := length (filter (fun e => P (snd e)) m).

Lemma cnt_put P m h c :
  (cnt P (put m h c) + match lookup m h with Some d => b2n (P d) | None => 0 end = cnt P m + b2n (P c))%nat.
Proof.
  induction m as [|[k d] m IH]; unfold cnt; cbn [put lookup filter].
  - change (put [] h c) with [(h, c)]. cbn. destruct (P c); reflexivity.
  - change (put ((k, d) :: m) h c) with (if k =? h then (h, c) :: m else (k, d) :: put m h c).
    destruct (N.eqb_spec k h) as [->|N]; cbn [filter snd].
    + destruct (P c), (P d); cbn; lia.
    + unfold cnt in IH. destruct (P d); cbn [length]; lia.
Qed.
Lemma cnt_filter P f m : (cnt P (filter f m) <= cnt P m)%nat.
Proof. unfold cnt. induction m as [|e m IH]; cbn [filter]; [auto|]. destruct (f e); cbn [filter]; destruct (P (snd e)); cbn [length]; lia. Qed.
Lemma cnt_erase P m h : (cnt P (erase m h) <= cnt P m)%nat.
Proof. apply cnt_filter. Qed.
Lemma cnt_pos P m h c : lookup m h = Some c -> P c = true -> (1 <= cnt P m)%nat.
Proof.
  intros L E. apply lookup_pair in L. unfold cnt.
  assert (In (h, c) (filter (fun e => P (snd e)) m)) as K by (apply filter_In; auto).
  destruct (filter _ m); [destruct K|cbn; lia].
Qed.
Lemma cnt_unique pick P s h c :
  NoDup (keys (conns s)) -> (cnt P (conns s) <= 1)%nat -> lookup (conns s) h = Some c -> P c = true -> find_cis pick P s = Some h.
Proof.
  intros N C L E. apply lookup_pair in L. unfold find_cis, cnt in *.
  assert (In (h, c) (filter (fun e => P (snd e)) (conns s))) as K by (apply filter_In; auto).
  destruct (filter _ (conns s)) as [|e [|e' t]]; [destruct K| |cbn in C; lia].
  destruct K as [->|[]]. cbn. destruct (Nat.modulo pick 1) eqn:Q; [reflexivity|]. rewrite Nat.mod_1_r in Q. discriminate.
Qed.

Definition rsp (a : N) : cis -> bool := waiting a CENTRAL PendingRsp.
Definition ind (a : N) : cis -> bool := waiting a PERIPHERAL PendingInd.

Lemma waiting_role a r p c : c_role c <> r -> waiting a r p c = false.
Proof. intros H. unfold waiting. destruct (role_eqb (c_role c) r) eqn:E; [apply role_eqb_eq in E; tauto|]. now rewrite andb_false_r. Qed.
Lemma waiting_phase a r p c : c_phase c <> p -> waiting a r p c = false.
Proof. intros H. unfold waiting. destruct (phase_eqb (c_phase c) p) eqn:E; [apply phase_eqb_eq in E; tauto|]. now rewrite andb_false_r. Qed.
Lemma waiting_same a r p c d : c_role c = c_role d -> c_phase c = c_phase d -> c_acl c = c_acl d -> waiting a r p c = waiting a r p d.
Proof. unfold waiting. now intros -> -> ->. Qed.

Definition asked (a : N) (out : list output) : nat := length (filter (asks a) out).
Definition agreed (a : N) (out : list output) : nat := length (filter (agrees_to a) out).

Lemma cnt_quiet P m h c d : lookup m h = Some d -> (P c = true -> P d = true) -> (cnt P (put m h c) <= cnt P m)%nat.
Proof. intros L E. pose proof (cnt_put P m h c) as K. rewrite L in K. destruct (P c), (P d); cbn in *; try lia. Qed.
Lemma cnt_new P m h c : lookup m h = None -> P c = false -> (cnt P (put m h c) <= cnt P m)%nat.
Proof. intros L E. pose proof (cnt_put P m h c) as K. rewrite L, E in K. cbn in K. lia. Qed.
Lemma cnt_drop P m h c d : lookup m h = Some d -> P d = true -> P c = false -> (cnt P (put m h c) = cnt P m - 1)%nat.
Proof. intros L E F. pose proof (cnt_put P m h c) as K. rewrite L, E, F in K. cbn in K. lia. Qed.

Lemma deque_cnt s s' out a :
  inv s -> deque s = Some (s', out) ->
  (cnt (rsp a) (conns s') <= cnt (rsp a) (conns s) + asked a out)%nat /\ (cnt (ind a) (conns s') <= cnt (ind a) (conns s))%nat.
Proof.
  intros I H. unfold deque in H. destruct (queue s) as [|r q] eqn:Q; [injection H as <- <-; split; lia|].
  destruct (inv_requests _ I r) as (d & D1 & D2 & _); [rewrite Q; now left|].
  open H. injection H as <- <-. rewrite D1 in E2. injection E2 as <-. cbn [conns with_conns with_queue]. split.
  - match goal with |- (cnt ?P (put ?m ?h ?c) <= _)%nat => pose proof (cnt_put P m h c) as K end. rewrite D1 in K.
    unfold asked. cbn [filter asks]. destruct (r_acl r =? a) eqn:A; cbn [length].
    + destruct (rsp a (with_c_params _ _)) in K; cbn [b2n] in K; lia.
    + match type of K with (_ + _ = _ + b2n ?b)%nat => assert (b = false) as Z end.
      { unfold rsp, waiting. cbn. rewrite A. reflexivity. }
      rewrite Z in K. cbn [b2n] in K. lia.
  - apply (cnt_quiet _ _ _ _ _ D1). unfold ind. rewrite waiting_phase; discriminate.
Qed.

Lemma add_entries_cnt P g l : (forall c, c_phase c = Configuration -> P c = false) ->
  forall s s' hs, add_entries g l s = Some (s', hs) -> (cnt P (conns s') <= cnt P (conns s))%nat.
Proof.
  intros C. induction l as [|n l IH]; intros s s' hs H; cbn [add_entries] in H; [now injection H as <- <-|].
  open H. injection H as <- <-. etransitivity; [exact (IH _ _ _ E0)|]. unfold new_cis in E. open E; injection E as <- <-; [reflexivity|].
  apply new_cis_handle_spec in E2 as [_ E2]. cbn [conns with_conns with_configs]. apply cnt_new; [exact E2|]. apply C. reflexivity.
Qed.

Lemma lost_quiet a acl r : forall l, asked a (flat_map (lost acl r) l) = 0%nat /\ agreed a (flat_map (lost acl r) l) = 0%nat.
Proof.
  induction l as [|c l [IH1 IH2]]; [split; reflexivity|]. unfold asked, agreed in *. cbn [flat_map]. rewrite !filter_app, !app_length, IH1, IH2.
  unfold lost. destruct (optN_eqb _ _); [|split; reflexivity]. destruct (c_phase c); split; reflexivity.
Qed.

Lemma cnt_unlink a acl r p m : p <> Configuration ->
  (cnt (waiting a r p) (map (fun e => (fst e, unlink acl (snd e))) m) <= cnt (waiting a r p) m)%nat.
Proof.
  intros N. unfold cnt. induction m as [|[k c] m IH]; cbn [map filter fst snd]; [auto|].
  assert (waiting a r p (unlink acl c) = true -> waiting a r p c = true).
  { unfold unlink. destruct (optN_eqb (c_acl c) acl); [|auto]. rewrite waiting_phase; [discriminate|]. cbn. auto. }
  destruct (waiting a r p (unlink acl c)), (waiting a r p c); cbn [length]; try lia.
Qed.

Lemma sub_le a b c d : (a <= b -> c = 0 -> a <= b - c + d)%nat.
Proof. lia. Qed.

Lemma run_cnt ck e s o s' out a :
  inv s -> run ck e s o = Some (s', out) ->
  (cnt (rsp a) (conns s') <= cnt (rsp a) (conns s) - answered_by a o + asked a out)%nat /\
  (cnt (ind a) (conns s') <= cnt (ind a) (conns s) - confirmed_by a o + agreed a out)%nat.
Proof.
  intros I H.
  assert (CF : forall r p c, p <> Configuration -> c_phase c = Configuration -> waiting a r p c = false).
  { intros r p c N E. apply waiting_phase. congruence. }
  assert (Same : forall x y, conns x = conns y -> forall P, (cnt P (conns x) <= cnt P (conns y))%nat) by (intros x y -> P; auto).
  destruct o; cbn [run] in H; cbn [answered_by confirmed_by].
  - unfold set_cig, fail in H. open H; injection H as <- <-; (split; (apply sub_le; [|reflexivity])); auto;
      match goal with K : add_entries _ _ _ = Some _ |- (cnt ?P _ <= _)%nat => refine (add_entries_cnt P _ _ _ _ _ _ K) end;
      intros c0; apply CF; discriminate.
  - unfold set_cig_test, fail in H. open H; injection H as <- <-; (split; (apply sub_le; [|reflexivity])); auto;
      match goal with K : add_entries _ _ _ = Some _ |- (cnt ?P _ <= _)%nat => refine (add_entries_cnt P _ _ _ _ _ _ K) end;
      intros c0; apply CF; discriminate.
  - unfold remove_cig, fail in H. open H; injection H as <- <-; (split; (apply sub_le; [|reflexivity])); auto; apply cnt_filter.
  - unfold create_cis, fail in H. open H; injection H as <- <-; try (split; apply sub_le; auto; fail).
    match goal with K : check_requests _ _ _ = _ |- _ => apply check_requests_spec in K as [C1 C2]; [|exact I|constructor|intros r []] end.
    match goal with K : freeze _ _ = Some _ |- _ => apply freeze_spec in K as (F1 & F2 & F3 & F4 & F5 & F6 & F7) end.
    match goal with K : deque (with_queue ?q ?w) = Some _ |- _ => assert (I' : inv (with_queue q w)) end.
    { destruct I as [I1 I2 I3 I4 I5]. split; cbn; rewrite ?F1; auto.
      - intros k d L. destruct (I2 k d L) as (U1 & U2 & U3 & U4 & U5 & U6 & U7).
        repeat (split; [assumption|]). intros X. destruct (U7 X) as [V1 V2]. cbn. rewrite F3. split; [|exact V2].
        rewrite F7. exact V1.
      - intros r Hr. destruct (C2 r Hr) as (c0 & L & KK). exists c0. cbn. rewrite F1. auto. }
    match goal with K : deque _ = Some _ |- _ => apply (deque_cnt _ _ _ a I') in K as [K1 K2] end.
    cbn [conns with_queue] in K1, K2. rewrite F1 in K1, K2. unfold asked, agreed in *. rewrite !filter_app, !app_length. lia.
  - unfold accept_cis, fail in H. open H; injection H as <- <-; try (split; apply sub_le; auto; fail).
    cbn [conns with_conns]. split; [apply sub_le; [|reflexivity]|].
    + eapply cnt_quiet; [eassumption|]. unfold rsp. rewrite waiting_phase; discriminate.
    + match goal with |- (cnt ?P (put ?m ?h ?c) <= _)%nat => pose proof (cnt_put P m h c) as K end.
      unfold agreed. cbn [filter agrees_to answer]. cbn [confirmed_by] in *.
      match goal with L : lookup (conns s) _ = Some _, A : c_acl _ = Some _ |- _ => rewrite L in K; rename A into AA end.
      match goal with |- context [?x =? a] => destruct (x =? a) eqn:Q end; cbn [length].
      * match type of K with (_ = _ + b2n ?b)%nat => destruct b end; cbn [b2n] in K; lia.
      * match type of K with (_ = _ + b2n ?b)%nat => assert (b = false) as Z end.
        { unfold ind, waiting. cbn [c_acl with_c_phase]. rewrite AA. cbn [optN_eqb]. rewrite Q. reflexivity. }
        rewrite Z in K. cbn [b2n] in K. lia.
  - unfold reject_cis, fail in H. open H; injection H as <- <-; (split; (apply sub_le; [|reflexivity])); auto; apply cnt_erase.
  - unfold setup_path, fail in H. open H; injection H as <- <-; (split; (apply sub_le; [|reflexivity])); auto;
      (eapply cnt_quiet; [eassumption|]; intros W; rewrite <- W; destruct (Bool.eqb _ _); reflexivity).
  - unfold remove_path, fail in H. destruct (lookup (conns s) h) as [c|] eqn:L.
    + destruct (if role_eqb _ _ then _ else _) in H. open H; injection H as <- <-; (split; (apply sub_le; [|reflexivity])); auto;
        (eapply cnt_quiet; [eassumption|]; intros W; rewrite <- W; apply waiting_same; reflexivity).
    + open H; injection H as <- <-; (split; (apply sub_le; [|reflexivity])); auto.
  - unfold disconnect, fail in H. destruct (lookup (conns s) h) as [d|] eqn:L; [|injection H as <- <-; split; apply sub_le; auto].
    open H; injection H as <- <-; (split; (apply sub_le; [|reflexivity])); auto; (destruct (role_eqb _ _); [|apply cnt_erase]);
      unfold set_phase; rewrite L; (eapply cnt_quiet; [eassumption|]); unfold rsp, ind; rewrite waiting_phase; discriminate.
  - unfold create_big, fail in H. open H; injection H as <- <-; (split; (apply sub_le; [|reflexivity])); auto.
  - unfold terminate_big, fail in H. open H; injection H as <- <-; (split; (apply sub_le; [|reflexivity])); auto.
  - unfold add_link in H. open H. injection H as <- <-. split; apply sub_le; auto.
  - unfold remove_link, remove_acl in H. open H. injection H as <- <-. cbn [conns with_conns with_queue].
    split; apply sub_le; auto; (etransitivity; [apply cnt_unlink; discriminate|apply cnt_filter]).
  - destruct p; cbn [answered_by confirmed_by].
    + unfold cis_req in H. open H. injection H as <- <-. apply new_cis_handle_spec in E as [_ E].
      split; (apply sub_le; [|reflexivity]); (apply cnt_new; [exact E|apply waiting_phase; discriminate]).
    + unfold cis_rsp in H. destruct (find_cis _ _ _) as [n|] eqn:F.
      * apply find_cis_spec in F as (d & L & W0); [|exact I]. pose proof W0 as W. apply waiting_spec in W as (W1 & W2 & W).
        open H. injection H as <- <-. rewrite L in E. injection E as <-.
        match goal with K : deque _ = Some _ |- _ => apply (deque_cnt _ _ _ a (set_phase_connected_inv _ _ _ I L W)) in K as [K1 K2] end.
        unfold set_phase in K1, K2. rewrite L in K1, K2. cbn [conns with_conns] in K1, K2. unfold asked, agreed in *. cbn [filter asks agrees_to].
        destruct (N.eqb_spec acl a) as [->|Ne].
        -- rewrite (cnt_drop (rsp a) _ _ _ _ L W0) in K1; [|apply waiting_phase; discriminate].
           assert (X := cnt_quiet (ind a) (conns s) n (with_c_phase Connected d) d L). unfold ind in X at 1. rewrite waiting_phase in X by discriminate.
           specialize (X ltac:(discriminate)). lia.
        -- assert (Y := cnt_quiet (rsp a) (conns s) n (with_c_phase Connected d) d L). unfold rsp in Y at 1. rewrite waiting_phase in Y by discriminate.
           specialize (Y ltac:(discriminate)).
           assert (X := cnt_quiet (ind a) (conns s) n (with_c_phase Connected d) d L). unfold ind in X at 1. rewrite waiting_phase in X by discriminate.
           specialize (X ltac:(discriminate)). lia.
      * injection H as <- <-. split; [|apply sub_le; auto]. destruct (N.eqb_spec acl a) as [->|Ne]; [|lia].
        assert (cnt (rsp a) (conns s) = 0%nat) as ->; [|lia].
        unfold find_cis in F. unfold cnt, rsp. destruct (filter _ (conns s)); [reflexivity|discriminate].
    + unfold cis_ind in H. destruct (find_cis _ _ _) as [n|] eqn:F.
      * apply find_cis_spec in F as (d & L & W0); [|exact I]. pose proof W0 as W. apply waiting_spec in W as (W1 & W2 & W).
        open H. injection H as <- <-. rewrite L in E. injection E as <-. cbn [conns with_conns].
        split; [apply sub_le; auto; apply (cnt_quiet _ _ _ _ _ L); unfold rsp; rewrite waiting_phase; discriminate|].
        destruct (N.eqb_spec acl a) as [->|Ne].
        -- rewrite (cnt_drop (ind a) _ _ _ _ L W0); [lia|apply waiting_phase; discriminate].
        -- apply sub_le; auto; apply (cnt_quiet _ _ _ _ _ L); unfold ind; rewrite waiting_phase; discriminate.
      * injection H as <- <-. split; [apply sub_le; auto|]. destruct (N.eqb_spec acl a) as [->|Ne]; [|lia].
        assert (cnt (ind a) (conns s) = 0%nat) as ->; [|lia].
        unfold find_cis in F. unfold cnt, ind. destruct (filter _ (conns s)); [reflexivity|discriminate].
    + unfold cis_terminate in H. open H; injection H as <- <-; (split; (apply sub_le; [|reflexivity])); auto; apply cnt_erase.
    + unfold reject_ext in H. destruct (negb _); [discriminate|]. destruct (find_cis _ _ _) as [n|] eqn:F.
      * apply find_cis_spec in F as (d & L & W0); [|exact I]. pose proof W0 as W. apply waiting_spec in W as (W1 & W2 & W).
        open H. injection H as <- <-. rewrite L in E. injection E as <-.
        match goal with K : deque _ = Some _ |- _ => apply (deque_cnt _ _ _ a (reset_inv _ _ _ None I L W2)) in K as [K1 K2] end.
        cbn [conns with_conns] in K1, K2. unfold asked, agreed in *. cbn [filter asks agrees_to].
        set (d' := with_c_params None (with_c_phase Configuration d)) in *.
        assert (X := cnt_quiet (ind a) (conns s) n d' d L). unfold ind in X at 1. rewrite waiting_phase in X by discriminate.
        specialize (X ltac:(discriminate)).
        destruct (N.eqb_spec acl a) as [->|Ne].
        -- rewrite (cnt_drop (rsp a) _ _ _ _ L W0) in K1; [|apply waiting_phase; discriminate]. lia.
        -- assert (Y := cnt_quiet (rsp a) (conns s) n d' d L). unfold rsp in Y at 1. rewrite waiting_phase in Y by discriminate.
           specialize (Y ltac:(discriminate)). lia.
      * injection H as <- <-. split; [|apply sub_le; auto]. destruct (N.eqb_spec acl a) as [->|Ne]; [|lia].
        assert (cnt (rsp a) (conns s) = 0%nat) as ->; [|lia].
        unfold find_cis in F. unfold cnt, rsp. destruct (filter _ (conns s)); [reflexivity|discriminate].
    + discriminate.
Qed.

Lemma history_cnt ck (P : state -> op -> Prop) h s a :
  (forall s o, P s o -> orderly s o) -> history ck P h s ->
  (cnt (rsp a) (conns s) <= unanswered a h)%nat /\ (cnt (ind a) (conns s) <= unconfirmed a h)%nat.
Proof.
  intros PO H. induction H as [|h s e o s' out H [IH1 IH2] Q E]; [cbn; split; auto|].
  apply step_run in E as [E _]. destruct (run_cnt _ _ _ _ _ _ a (history_inv _ _ _ _ PO H) E) as [K1 K2].
  cbn [unanswered unconfirmed what sent]. fold (asked a out). fold (agreed a out). lia.
Qed.

Lemma deque_request s s' out a g c p :
  inv s -> deque s = Some (s', out) -> In (Send a (CisReq g c p)) out ->
  exists x d q, lookup (conns s') x = Some d /\ c_role d = CENTRAL /\ c_phase d = PendingRsp /\ c_acl d = Some a /\
    c_cig d = g /\ c_cis d = c /\ c_params d = Some q /\ p = with_cig_delay 0 (with_cis_delay 0 q).
Proof.
  intros I H IN. unfold deque in H. destruct (queue s) as [|r l] eqn:Q; [injection H as <- <-; destruct IN|].
  destruct (inv_requests _ I r) as (d & D1 & D2 & D3 & D4 & D5); [rewrite Q; now left|].
  open H. injection H as <- <-. destruct IN as [IN|[]]. injection IN as <- <- <- <-.
  rewrite D1 in E2. injection E2 as <-.
  exists (r_handle r). eexists. eexists. cbn [conns with_conns with_queue]. rewrite lookup_put, N.eqb_refl.
  split; [reflexivity|]. cbn. auto 10.
Qed.

Lemma run_request ck e s o s' out a g c p :
  inv s -> run ck e s o = Some (s', out) -> In (Send a (CisReq g c p)) out ->
  exists x d q, lookup (conns s') x = Some d /\ c_role d = CENTRAL /\ c_phase d = PendingRsp /\ c_acl d = Some a /\
    c_cig d = g /\ c_cis d = c /\ c_params d = Some q /\ p = with_cig_delay 0 (with_cis_delay 0 q).
Proof.
  intros I E IN. destruct o; cbn [run] in E.
  - unfold set_cig, fail, answer in E. open E; injection E as <- <-; cbn in IN; intuition discriminate.
  - unfold set_cig_test, fail, answer in E. open E; injection E as <- <-; cbn in IN; intuition discriminate.
  - unfold remove_cig, fail, answer in E. open E; injection E as <- <-; cbn in IN; intuition discriminate.
  - unfold create_cis, fail, answer in E. open E; injection E as <- <-; try (cbn in IN; intuition discriminate).
    apply in_app_iff in IN as [IN|IN]; [|cbn in IN; intuition discriminate].
    apply check_requests_spec in E0 as [C1 C2]; [|exact I|constructor|intros r []].
    match goal with FZ : freeze _ _ = Some _ |- _ => apply freeze_spec in FZ as (F1 & F2 & F3 & F4 & F5 & F6 & F7) end.
    match goal with D : deque ?w = Some _ |- _ => eapply deque_request; [|exact D|exact IN] end.
    destruct I as [I1 I2 I3 I4 I5]. split; cbn; rewrite ?F1; auto.
    + intros k d L. destruct (I2 k d L) as (U1 & U2 & U3 & U4 & U5 & U6 & U7).
      repeat (split; [assumption|]). intros X. destruct (U7 X) as [V1 V2]. cbn. rewrite F3. split; [|exact V2].
      rewrite F7. exact V1.
    + intros r Hr. destruct (C2 r Hr) as (c0 & L & KK). exists c0. cbn. rewrite F1. auto.
  - unfold accept_cis, fail, answer in E. open E; injection E as <- <-; cbn in IN; intuition discriminate.
  - unfold reject_cis, fail, answer in E. open E; injection E as <- <-; cbn in IN; intuition discriminate.
  - unfold setup_path, fail, answer in E. open E; injection E as <- <-; cbn in IN; intuition discriminate.
  - unfold remove_path, fail, answer in E. destruct (lookup (conns s) h).
    + destruct (if role_eqb _ _ then _ else _) in E. open E; injection E as <- <-; cbn in IN; intuition discriminate.
    + open E; injection E as <- <-; cbn in IN; intuition discriminate.
  - unfold disconnect, fail, answer in E. open E; injection E as <- <-; cbn in IN; intuition discriminate.
  - unfold create_big, fail, answer in E. open E; injection E as <- <-; cbn in IN; intuition discriminate.
  - unfold terminate_big, fail, answer in E. open E; injection E as <- <-; cbn in IN; intuition discriminate.
  - unfold add_link in E. open E; injection E as <- <-; destruct IN.
  - unfold remove_link, remove_acl in E. open E. injection E as <- <-.
    apply in_app_iff in IN as [IN|IN]; apply in_flat_map in IN as (u & _ & IN).
    + unfold lost in IN. destruct (optN_eqb _ _); [|destruct IN]. destruct (c_phase u); cbn in IN; intuition discriminate.
    + destruct (r_acl u =? h); cbn in IN; intuition discriminate.
  - destruct p0.
    + unfold cis_req in E. open E. injection E as <- <-. cbn in IN. intuition discriminate.
    + unfold cis_rsp in E. open E; injection E as <- <-; cbn [In] in IN; [|destruct IN].
      destruct IN as [IN|[IN|IN]]; try discriminate.
      assert (FC := E0). apply find_cis_spec in FC as (d & L & W); [|exact I]. apply waiting_spec in W as (_ & _ & W).
      match goal with D : deque ?w = Some _ |- _ => eapply deque_request; [|exact D|exact IN] end.
      eapply set_phase_connected_inv; eauto.
    + unfold cis_ind in E. open E; injection E as <- <-; cbn in IN; intuition discriminate.
    + unfold cis_terminate in E. open E; injection E as <- <-; cbn in IN; intuition discriminate.
    + unfold reject_ext in E. open E; injection E as <- <-; cbn [In] in IN; [|destruct IN].
      destruct IN as [IN|IN]; try discriminate.
      assert (FC := E1). apply find_cis_spec in FC as (d & L & W); [|exact I]. apply waiting_spec in W as (_ & W & W').
      rewrite E2 in L. injection L as ->.
      match goal with D : deque ?w = Some _ |- _ => eapply deque_request; [|exact D|exact IN] end. apply reset_inv; auto.
    + discriminate.
Qed.

Lemma reports_exchanged ck p q r1 :
  q = with_cig_delay (cig_delay p) (with_cis_delay (cis_delay p) (with_cig_delay 0 (with_cis_delay 0 (with_cig_delay 0 (with_cis_delay 0 p))))) ->
  report_of ck CENTRAL p = Some r1 -> exists r2, report_of ck PERIPHERAL q = Some r2 /\ exchanged r1 r2.
Proof.
  intros -> H. unfold report_of in *. cbn [cig_delay cis_delay p_iso p_ft_cp p_ft_pc p_int_cp p_int_pc p_framed p_phy_cp p_phy_pc p_nse p_bn_cp p_bn_pc p_pdu_cp p_pdu_pc with_cig_delay with_cis_delay].
  destruct (transport_latency ck (cig_delay p) (p_iso p) (p_ft_cp p) _ _); [|discriminate].
  destruct (transport_latency ck (cig_delay p) (p_iso p) (p_ft_pc p) _ _); [|discriminate].
  destruct (phy_code (p_phy_cp p)); [|discriminate]. destruct (phy_code (p_phy_pc p)); [|discriminate].
  cbn [bind] in *. injection H as <-. eexists. split; [reflexivity|]. unfold exchanged. cbn. auto 20.
Qed.

Lemma ends_agree ck h1 s1 e1 o s1' out1 a g c p h2 s2 k a' e2 e3 e4 e5 k1 k2 :
  history ck sane h1 s1 -> sane s1 o -> step ck e1 s1 o = Ok s1' out1 -> In (Send a (CisReq g c p)) out1 ->
  unanswered a (Moment e1 o out1 :: h1) = 1%nat ->
  history ck sane h2 s2 -> sane s2 (Receive k a' (CisReq g c p)) -> unconfirmed a' h2 = 0%nat ->
  exists x y s2' s2'' s1'' s2''' d1 d2 r1 r2 more,
    lookup (streams (Moment e1 o out1 :: h1)) x = Some (Own g c) /\
    step ck e2 s2 (Receive k a' (CisReq g c p)) = Ok s2' [Event (CisRequested a' y g c)] /\
    step ck e3 s2' (AcceptCis y) = Ok s2'' [Send a' CisRsp; Event (Answer OP_ACCEPT SUCCESS [])] /\
    step ck e4 s1' (Receive k1 a CisRsp) = Ok s1'' (Send a (CisInd d1 d2) :: Event (Established SUCCESS x r1) :: more) /\
    step ck e5 s2'' (Receive k2 a' (CisInd d1 d2)) = Ok s2''' [Event (Established SUCCESS y r2)] /\
    exchanged r1 r2.
Proof.
  intros H1 Q1 E1 IN U1 H2 Q2 U2.
  assert (H1' : history ck sane (Moment e1 o out1 :: h1) s1') by (econstructor; eauto).
  pose proof (sane_history _ _ _ H1') as S1.
  assert (SO : forall s o, sane s o -> orderly s o) by (intros ? ? [? _]; auto).
  pose proof (history_agrees _ _ _ _ SO H1') as [_ A1].
  pose proof (history_cnt _ _ _ _ a SO H1') as [C1 _]. rewrite U1 in C1.
  apply step_run in E1 as [E1 _].
  destruct (run_request _ _ _ _ _ _ _ _ _ _ (history_inv _ _ _ _ SO H1) E1 IN) as (x & d & q & L & D1 & D2 & D3 & D4 & D5 & D6 & D7).
  assert (F1 : find_cis k1 (rsp a) s1' = Some x).
  { eapply cnt_unique; [apply S1|exact C1|exact L|]. unfold rsp, waiting. rewrite D3, D1, D2. cbn. now rewrite N.eqb_refl. }
  (* the peripheral is asked *)
  destruct (sane_step ck e2 _ _ (sane_history _ _ _ H2) Q2) as (s2' & out2 & T2 & S2').
  assert (H2' : history ck sane (Moment e2 (Receive k a' (CisReq g c p)) out2 :: h2) s2') by (econstructor; eauto).
  pose proof T2 as T2'. apply step_run in T2' as [T2' _]. cbn [run] in T2'. unfold cis_req in T2'. open T2'. injection T2' as <- <-. rename a0 into y.
  (* it accepts *)
  match type of H2' with history _ _ (?m :: _) ?s => set (m2 := m) in *; set (s2' := s) in * end.
  destruct (sane_step ck e3 s2' (AcceptCis y) S2') as (s2'' & out3 & T3 & S2''); [repeat split|].
  assert (H2'' : history ck sane (Moment e3 (AcceptCis y) out3 :: m2 :: h2) s2'') by (econstructor; eauto; repeat split).
  pose proof T3 as T3'. apply step_run in T3' as [T3' _]. cbn [run] in T3'. unfold accept_cis in T3'.
  assert (LY : lookup (conns s2') y = Some (Cis g c PERIPHERAL y (Some a') PendingAccept (Some (with_cig_delay 0 (with_cis_delay 0 p))) false false)).
  { unfold s2'. cbn [conns with_conns]. now rewrite lookup_put, N.eqb_refl. }
  rewrite LY in T3'. cbn in T3'. injection T3' as X1 X2. subst out3.
  assert (LY' : lookup (conns s2'') y = Some (Cis g c PERIPHERAL y (Some a') PendingInd (Some (with_cig_delay 0 (with_cis_delay 0 p))) false false)).
  { rewrite <- X1. cbn [conns with_conns]. rewrite lookup_put, N.eqb_refl. reflexivity. }
  pose proof (history_cnt _ _ _ _ a' SO H2'') as [_ C2].
  assert (C2' : (cnt (ind a') (conns s2'') <= 1)%nat).
  { etransitivity; [exact C2|]. unfold m2. cbn [unconfirmed what sent confirmed_by filter agrees_to answer length]. rewrite U2, N.eqb_refl. cbn. lia. }
  assert (F2 : find_cis k2 (ind a') s2'' = Some y).
  { eapply cnt_unique; [apply S2''|exact C2'|exact LY'|]. unfold ind, waiting. cbn. now rewrite N.eqb_refl. }
  (* the central hears *)
  destruct (sane_step ck e4 s1' (Receive k1 a CisRsp) S1) as (s1'' & out4 & T4 & _); [repeat split|].
  pose proof T4 as T4'. apply step_run in T4' as [T4' _]. cbn [run] in T4'. unfold cis_rsp in T4'. fold (rsp a) in T4'. rewrite F1, L in T4'. cbn [bind] in T4'.
  rewrite D6 in T4'. cbn [bind] in T4'. destruct (safe_streams _ S1 _ _ L q D6) as [P1 P2]. destruct (P2 D1) as [P3 P4].
  destruct (report_of ck CENTRAL q) as [r1|] eqn:R1; [|discriminate]. cbn [bind] in T4'. open T4'. injection T4' as <- <-.
  (* and confirms *)
  destruct (reports_exchanged ck q _ r1 eq_refl R1) as (r2 & R2 & X).
  destruct (sane_step ck e5 s2'' (Receive k2 a' (CisInd (cig_delay q) (cis_delay q))) S2'') as (s2''' & out5 & T5 & _).
  { split; [repeat split|]. intros z d' p' Z1 Z2 Z3 Z4.
    assert (z = y) as ->.
    { assert (find_cis k2 (ind a') s2'' = Some z); [|congruence].
      eapply cnt_unique; [apply S2''|exact C2'|exact Z1|]. unfold ind, waiting. rewrite Z2, Z3.
      destruct (inv_cis _ (safe_inv _ S2'') _ _ Z1) as (_ & _ & _ & _ & PR & _). unfold phase_role in PR. rewrite Z2 in PR.
      rewrite PR. cbn. now rewrite N.eqb_refl. }
    rewrite LY' in Z1. injection Z1 as <-. cbn in Z4. injection Z4 as <-. rewrite P3, P4, D7. cbn. auto. }
  pose proof T5 as T5'. apply step_run in T5' as [T5' _]. cbn [run] in T5'. unfold cis_ind in T5'. fold (ind a') in T5'.
  rewrite F2, LY' in T5'. cbn [bind c_params] in T5'. cbv zeta in T5'. rewrite D7 in T5'.
  rewrite R2 in T5'. cbn [bind] in T5'. injection T5' as X3 <-.
  exists x, y, s2', s2'', s, s2''', (cig_delay q), (cis_delay q), r1, r2, l.
  split. { rewrite A1, L. cbn. unfold proj. now rewrite D1, D4, D5. }
  split; [exact T2|]. split; [exact T3|]. split; [exact T4|]. split; [exact T5|exact X].
Qed.
