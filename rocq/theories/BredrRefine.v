(** The controller and what the host is told about its links: every step is a sequence of
    happenings, each announced by one event. *)
From Coq Require Import Permutation.
From Verif Require Import Prelude Table Sco Bredr BredrBase BredrInv BredrConn BredrSpec.
From Verif Require Handles HandlesProofs.
Import Handles(get_unused_handle, kAclRangeStart, kAclRangeEnd, kScoRangeStart, kScoRangeEnd).
Open Scope N_scope.

Lemma total_app : forall (T : Type) (f : T -> Z) l1 l2, total f (l1 ++ l2) = (total f l1 + total f l2)%Z.
Proof. intros T f l1 l2. unfold total. induction l1 as [|x l IH]; cbn [fold_right app]; [lia|]. rewrite IH. lia. Qed.
Lemma total_perm : forall (T : Type) (f : T -> Z) l1 l2, Permutation l1 l2 -> total f l1 = total f l2.
Proof. intros T f l1 l2 P. unfold total. induction P; cbn [fold_right]; lia. Qed.
Lemma total_cons : forall (T : Type) (f : T -> Z) x l, total f (x :: l) = (f x + total f l)%Z.
Proof. reflexivity. Qed.

Lemma happen_app : forall c l1 c' l2 c'', happen c l1 c' -> happen c' l2 c'' -> happen c (l1 ++ l2) c''.
Proof. intros c l1 c' l2 c'' H. induction H; cbn [app]; auto. intros H'. econstructor; eauto. Qed.
Lemma happen_one : forall c l c', happens c l c' -> happen c [l] c'.
Proof. intros. econstructor; [eassumption|constructor]. Qed.

Section Values.
Variable completes : status -> N -> addr -> Z.
Variable ends : N -> Z.
Notation to_tell := (to_tell completes ends).
Notation told := (told completes ends).
Notation happened := (happened completes ends).
Notation value_of_job := (value_of_job completes ends).

Lemma tt_queue : forall s s', queue s' = queue s -> to_tell s' = to_tell s.
Proof. intros s s' E. unfold BredrSpec.to_tell. now rewrite E. Qed.
Lemma tt_insert : forall t q (f : task -> Z), total f (insert t q) = (f t + total f q)%Z.
Proof. intros t q f. now rewrite (total_perm _ _ _ _ (insert_permutation t q)). Qed.
Lemma tt_schedule : forall t j s, to_tell (schedule t j s) = (value_of_job j + to_tell s)%Z.
Proof. intros t j s. unfold BredrSpec.to_tell. fields. rewrite tt_insert. now fields. Qed.
Lemma tt_remove : forall i q, (forall t, In t q -> ident t = i -> value_of_job (what_to_do t) = 0%Z) ->
  total (fun t => value_of_job (what_to_do t)) (remove_task i q) = total (fun t => value_of_job (what_to_do t)) q.
Proof.
  intros i. induction q as [|u q IH]; intros H; cbn [remove_task]; auto.
  destruct (ident u =? i) eqn:E.
  - apply N.eqb_eq in E. rewrite total_cons, (H u); auto; now left.
  - rewrite !total_cons, IH; auto. intros t I. apply H. now right.
Qed.
Lemma tt_stop_stream : forall h c s, core s -> In (h, c) (scos s) -> to_tell (stop_stream c s) = to_tell s.
Proof.
  intros h c s C I. unfold stop_stream. destruct (sco_stream c) as [i|] eqn:E; auto.
  unfold BredrSpec.to_tell. fields. apply tt_remove. intros t J F.
  destruct (core_streams s C h c i I E) as (_ & T). destruct (T t J F) as (h' & ->). reflexivity.
Qed.
Lemma tt_close_sco : forall h s, core s -> to_tell (close_sco h s) = to_tell s.
Proof.
  intros h s C. unfold close_sco. destruct (lookup (scos s) h) as [c|] eqn:L; auto. cbv zeta.
  rewrite (tt_queue (stop_stream c s)) by reflexivity. eapply tt_stop_stream; eauto. apply lookup_pair, L.
Qed.
Lemma tt_cancel_sco : forall order a s, to_tell (cancel_sco order a s) = to_tell s.
Proof. intros. unfold cancel_sco. destruct (sco_of order a s) as [[h c]|]; auto. Qed.
Lemma tt_tell_disconnection : forall now h r s, unmasked s 5 = true -> to_tell (tell_disconnection now h r s) = (ends h + to_tell s)%Z.
Proof. intros now h r s U. unfold tell_disconnection. rewrite U. unfold tell. now rewrite tt_schedule. Qed.
End Values.

(** Nothing about the links happened *)
Definition calm (s s' : bredr) : Prop :=
  seen s' = seen s /\ mask s' = mask s /\ forall cc dc, to_tell cc dc s' = to_tell cc dc s.
Lemma calm_refl : forall s, calm s s.
Proof. now intros s. Qed.
Lemma calm_trans : forall a b c, calm a b -> calm b c -> calm a c.
Proof. intros a b c (A1 & A2 & A3) (B1 & B2 & B3). split; [congruence|]. split; [congruence|]. intros. now rewrite B3, A3. Qed.
Lemma calm_schedule : forall t j s s', (forall cc dc, value_of_job cc dc j = 0%Z) -> calm s s' -> calm s (schedule t j s').
Proof.
  intros t j s s' Z A. eapply calm_trans; [exact A|]. split; [reflexivity|]. split; [reflexivity|].
  intros. rewrite tt_schedule, Z. reflexivity.
Qed.
Lemma calm_easy : forall s s' s'', acls s'' = acls s' -> page s'' = page s' -> mask s'' = mask s' -> queue s'' = queue s' -> calm s s' -> calm s s''.
Proof.
  intros s s' s'' E1 E2 E3 E4 A. eapply calm_trans; [exact A|]. unfold calm, seen. rewrite E1, E2. split; auto. split; auto.
  intros. now apply tt_queue.
Qed.
Lemma calm_close_sco : forall h s s', core s' -> calm s s' -> calm s (close_sco h s').
Proof.
  intros h s s' C A. eapply calm_trans; [exact A|]. destruct (close_sco_tables h s') as (T1 & _ & T3 & _).
  unfold calm, seen. rewrite T1, T3. split; auto. split.
  - unfold close_sco, stop_stream. destruct (lookup (scos s') h) as [c|]; auto. destruct (sco_stream c); auto.
  - intros. now apply tt_close_sco.
Qed.
Lemma calm_cancel_sco : forall order a s s', calm s s' -> calm s (cancel_sco order a s').
Proof. intros order a s s' A. unfold cancel_sco. destruct (sco_of order a s') as [[h c]|]; auto; now apply (calm_easy s s'). Qed.
Lemma seen_put : forall s h c c', lookup (acls s) h = Some c -> acl_peer c' = acl_peer c ->
  map (fun e => (fst e, acl_peer (snd e))) (put (acls s) h c') = map (fun e => (fst e, acl_peer (snd e))) (acls s).
Proof.
  intros s h c c'. generalize (acls s) as t. intros t L E. induction t as [|[k d] t IH]; cbn [lookup] in L; [discriminate|].
  unfold put; fold (put (C:=acl_link)). destruct (N.eqb_spec k h) as [->|D]; cbn [map fst snd].
  - injection L as ->. now rewrite E.
  - f_equal. now apply IH.
Qed.
Lemma calm_put : forall s s0 h c c', calm s s0 -> lookup (acls s0) h = Some c -> acl_peer c' = acl_peer c ->
  calm s (with_acls (put (acls s0) h c') s0).
Proof.
  intros s s0 h c c' A L E. eapply calm_trans; [exact A|]. unfold calm, seen. fields. rewrite (seen_put s0 h c c' L E). auto.
Qed.

Lemma nil_calm : forall s s', calm s s' -> happen (seen s) [] (seen s') /\ forall cc dc, (to_tell cc dc s' = to_tell cc dc s + happened cc dc [])%Z.
Proof. intros s s' (A & _ & B). rewrite A. split; [constructor|]. intros. rewrite B. unfold happened. cbn. lia. Qed.

Lemma seen_nodup : forall s, core s -> NoDup (map fst (map (fun e => (fst e, acl_peer (snd e))) (acls s))).
Proof.
  intros s C. rewrite map_map. cbn [fst]. apply (HandlesProofs.tinv_nodup _ _ _ _ (core_acl s C)).
Qed.

Section WithOrder.
Variable order : table sco_link -> table sco_link.
Variable cfg : config.
Hypothesis any_order : forall t, Permutation (order t) t.

Ltac calm_tac :=
  cbn [fst snd]; repeat first
  [ apply calm_refl
  | match goal with |- calm _ (schedule _ _ _) => apply calm_schedule; [reflexivity|] end
  | match goal with |- calm _ (transmit _ _ _) => apply calm_schedule; [reflexivity|] end
  | match goal with |- calm _ (sco_answer _ _ _ _ _) => apply calm_schedule; [reflexivity|] end
  | match goal with |- calm _ (tell _ _ _) => apply calm_schedule; [reflexivity|] end
  | match goal with |- calm _ (with_scos _ ?s) => apply (calm_easy _ s); [reflexivity..|] end
  | match goal with |- calm _ (with_last_sco _ ?s) => apply (calm_easy _ s); [reflexivity..|] end
  | match goal with |- calm _ (with_page_scan _ ?s) => apply (calm_easy _ s); [reflexivity..|] end
  | match goal with |- calm _ (with_inquiry _ ?s) => apply (calm_easy _ s); [reflexivity..|] end
  | apply calm_cancel_sco
  | match goal with |- calm _ (if ?b then _ else _) => destruct b end
  | match goal with |- calm _ (fst (if ?b then _ else _)) => destruct b end
  | match goal with |- calm _ (snd (if ?b then _ else _)) => destruct b end
  | assumption ].

Lemma sco_range : forall s h c, core s -> lookup (scos s) h = Some c -> 256 <= h <= 511.
Proof. intros s h c C L. apply (HandlesProofs.tinv_range _ _ _ _ (core_sco s C) h). eapply lookup_in, L. Qed.

Lemma closed_happens : forall s s' h c, core s -> lookup (acls s) h = Some c -> acls s' = erase (acls s) h -> page s' = page s ->
  happens (seen s) (Closed h) (seen s').
Proof.
  intros s s' h c C L E1 E2. destruct (erase_split _ (acls s) h c (HandlesProofs.tinv_nodup _ _ _ _ (core_acl s C)) L) as (t1 & t2 & T & E).
  unfold seen. rewrite E1, E, T, !map_app, E2. cbn [map fst snd]. constructor.
Qed.

Definition heard_bits (m : N) : Prop := N.testbit m 2 = true /\ N.testbit m 4 = true.
Lemma heard_mask : forall s, heard s <-> heard_bits (mask s).
Proof. intros s. reflexivity. Qed.

Lemma disconnect_happens : forall now h r r' s st s', core s -> heard s -> disconnect order now h r r' s = Ok (st, s') ->
  exists ls, happen (seen s) ls (seen s') /\ mask s' = mask s /\
    (forall cc dc, to_tell cc dc s' = (to_tell cc dc s + happened cc dc ls)%Z) /\
    (ls = [] \/ ls = [SyncClosed h] \/ ls = [Closed h] \/ exists h', ls = [SyncClosed h'; Closed h]).
Proof.
  intros now h r r' s st s' C H. unfold disconnect. destruct (lookup (scos s) h) as [c|] eqn:L.
  - intros [= <- <-]. exists [SyncClosed h]. set (s1 := transmit _ _ _).
    assert (C1 : core s1) by (now apply core_schedule).
    assert (A : calm s (close_sco h s1)) by (apply calm_close_sco; auto; unfold s1; calm_tac).
    destruct A as (A1 & A2 & A3). destruct (tell_disconnection_tables now h r' (close_sco h s1)) as (T1 & _ & T3 & _).
    assert (U : unmasked (close_sco h s1) 5 = true) by (unfold unmasked; rewrite A2; apply H).
    split; [|split; [|split]].
    + unfold seen at 2. rewrite T1, T3. fold (seen (close_sco h s1)). rewrite A1. apply happen_one. constructor. eapply sco_range; eauto.
    + unfold tell_disconnection. rewrite U. exact A2.
    + intros. rewrite tt_tell_disconnection by exact U. rewrite A3. unfold happened. cbn. lia.
    + auto.
  - destruct (lookup (acls s) h) as [c|] eqn:L'.
    2: { intros [= <- <-]. exists []. destruct (nil_calm s s (calm_refl s)) as (A & B). auto. }
    intros E.
    set (s1 := match sco_of order (acl_peer c) s with Some _ => _ | None => _ end) in E.
    assert (P1 : core s1 /\ acls s1 = acls s /\ page s1 = page s /\ mask s1 = mask s /\
      exists ls, (ls = [] \/ exists h', ls = [SyncClosed h'] /\ 256 <= h' <= 511) /\ forall cc dc, to_tell cc dc s1 = (to_tell cc dc s + happened cc dc ls)%Z).
    { unfold s1. destruct (sco_of order (acl_peer c) s) as [[sh sc]|] eqn:F.
      - set (s0 := transmit _ _ _). assert (C0 : core s0) by (now apply core_schedule).
        assert (A : calm s (close_sco sh s0)) by (apply calm_close_sco; auto; unfold s0; calm_tac).
        destruct A as (A1 & A2 & A3). destruct (tell_disconnection_tables now sh r' (close_sco sh s0)) as (T1 & _ & T3 & _).
        destruct (close_sco_tables sh s0) as (U1 & _ & U3 & _).
        assert (U : unmasked (close_sco sh s0) 5 = true) by (unfold unmasked; rewrite A2; apply H).
        split; [apply core_tell_disconnection; now apply core_close_sco|]. rewrite T1, T3, U1, U3.
        split; auto. split; auto. split; [unfold tell_disconnection; rewrite U; exact A2|].
        exists [SyncClosed sh]. split.
        + right. exists sh. split; auto. apply (sco_range s sh sc); auto. eapply sco_lookup; eauto.
        + intros. rewrite tt_tell_disconnection by exact U. rewrite A3. unfold happened. cbn. lia.
      - split; auto. split; auto. split; auto. split; auto. exists []. split; auto. intros. unfold happened. cbn. lia. }
    clearbody s1. destruct P1 as (C1 & T1 & T2 & T3 & ls & SH & TT). cbv zeta in E. unbind E. injection E as <- <-.
    apply (close_effect order h _ _ c) in E0; [|fields; now rewrite T1]. destruct E0 as (_ & ->).
    apply remove_link_effect in E1. destruct E1 as (_ & ->).
    match goal with |- context [tell_disconnection now h r' ?y] => set (s2 := y) end.
    assert (U : unmasked s2 5 = true) by (unfold s2, unmasked; fields; rewrite T3; apply H).
    destruct (tell_disconnection_tables now h r' s2) as (V1 & _ & V3 & _).
    exists (ls ++ [Closed h]). split; [|split; [|split]].
    + destruct SH as [->|(h' & -> & R)]; cbn [app].
      * apply happen_one. apply (closed_happens s _ h c); auto; fields; rewrite ?V1, ?V3; unfold s2; fields; now rewrite ?T1, ?T2.
      * apply first with (seen s); [now constructor|].
        apply happen_one. apply (closed_happens s _ h c); auto; fields; rewrite ?V1, ?V3; unfold s2; fields; now rewrite ?T1, ?T2.
    + unfold tell_disconnection. rewrite U. unfold s2. fields. exact T3.
    + intros. rewrite (tt_queue _ _ (tell_disconnection now h r' s2)) by reflexivity. rewrite tt_tell_disconnection by exact U.
      unfold s2. rewrite (tt_queue _ _ (transmit now (to_peer s1 (acl_peer c) (Bye r)) s1)) by reflexivity.
      unfold transmit. rewrite tt_schedule, TT. unfold happened. rewrite total_app. cbn. lia.
    + destruct SH as [->|(h' & -> & R)]; cbn [app]; eauto.
Qed.

(** One step of the controller, and the happenings that explain it *)
Lemma explained_calm : forall s s' out, calm s s' -> (forall cc dc, told cc dc out = 0%Z) -> explained s [] out s'.
Proof. intros s s' out A T. destruct (nil_calm s s' A) as (B & D). split; auto. intros. rewrite T, D. lia. Qed.
Lemma heard_kept : forall s s', heard s -> mask s' = mask s -> heard s'.
Proof. intros s s' H E. apply heard_mask. rewrite E. now apply heard_mask. Qed.
Lemma calm_heard : forall s s', heard s -> calm s s' -> heard s'.
Proof. intros s s' H (_ & E & _). now apply (heard_kept s). Qed.

Lemma check_happens : forall now h s s', core s -> heard s -> check_link order now h s = Ok s' ->
  exists ls, Forall ends_link ls /\ mask s' = mask s /\ explained s ls [] s'.
Proof.
  intros now h s s' C H. unfold check_link. destruct (lookup (acls s) h) as [c|].
  2: { intros [= <-]. exists []. split; [constructor|]. split; auto. apply explained_calm; [calm_tac|reflexivity]. }
  destruct (_ <? _); [|destruct (_ <? _)].
  - intros E. unbind E. injection E as <-. destruct (disconnect_happens _ _ _ _ _ _ _ C H E0) as (ls & A & B & D & F).
    exists ls. split; [|split; [exact B|split; [exact A|]]].
    + destruct F as [->|[->|[->|(h' & ->)]]]; repeat constructor.
    + intros. rewrite D. reflexivity.
  - intros [= <-]. exists []. split; [constructor|]. split; auto. apply explained_calm; [calm_tac|reflexivity].
  - intros [= <-]. exists []. split; [constructor|]. split; auto. apply explained_calm; [calm_tac|reflexivity].
Qed.

Lemma opened_happens : forall s s' h a r p now, core s -> ~ In h (keys (acls s)) -> h <= 255 -> ~ In a (peers s) ->
  acls s' = acls s ++ [(h, AclLink a r p now)] -> page s' = (if paging a s then None else page s) ->
  happens (seen s) (Opened h a) (seen s').
Proof.
  intros s s' h a r p now C N R P E1 E2. unfold seen. rewrite E1, E2, map_app. cbn [map fst snd acl_peer].
  replace (option_map page_peer (if paging a s then None else page s)) with
    (match option_map page_peer (page s) with Some b => if list_eqb b a then None else option_map page_peer (page s) | None => None end).
  - constructor; auto; rewrite map_map; auto.
  - unfold paging. destruct (page s) as [pg|]; cbn [option_map]; auto. destruct (list_eqb (page_peer pg) a); auto.
Qed.

Lemma opens_calm : forall now h s s', open_stream order now h s = Ok s' -> calm s s'.
Proof.
  intros now h s s'. unfold open_stream. destruct (lookup (scos s) h) as [c|]; [|intros [= <-]; calm_tac].
  destruct (sco_stream c); [discriminate|]. destruct (sco_spoofed c); [|intros [= <-]; calm_tac].
  destruct (sco_of order (sco_peer c) s) as [[h' c']|]; [|discriminate]. unfold start_stream. intros [= <-]. calm_tac.
Qed.
Lemma accept_negotiated_calm : forall now h c p s l s', accept_negotiated order now h c p s = Ok (l, s') -> calm s s'.
Proof.
  intros now h c p s l s'. unfold accept_negotiated. destruct (negotiate _ _ _) as [k|]; [|intros [= <- <-]; calm_tac].
  intros H. unbind H. injection H as <- <-. apply opens_calm in E. eapply calm_trans; [|exact E]. calm_tac.
Qed.
Lemma setup_sync_calm : forall now h p sp leg s st s', setup_sync order now h p sp leg s = Ok (st, s') -> calm s s'.
Proof.
  intros now h p sp leg s st s'. unfold setup_sync. destruct (lookup (acls s) h) as [c|]; [|intros [= <- <-]; calm_tac].
  destruct (has_pending_sco order (acl_peer c) s); [intros [= <- <-]; calm_tac|]. intros H. unbind H. injection H as <- <-.
  unfold create_sco in E. destruct (get_unused_handle _ _ _ _) as [[h' l]|]; [|discriminate]. injection E as <- <-. calm_tac.
Qed.
Lemma accept_sync_calm : forall now a p s st s', accept_sync order now a p s = Ok (st, s') -> calm s s'.
Proof.
  intros now a p s st s'. unfold accept_sync. destruct (sco_of order a s) as [[h c]|]; [|intros [= <- <-]; calm_tac].
  destruct (is_pending c); [|intros [= <- <-]; calm_tac]. intros H. unbind H. injection H as <- <-.
  apply accept_negotiated_calm in E. destruct o; calm_tac.
Qed.

Lemma accept_happens : forall now a try s st s', core s -> heard s -> accept_connection order now a try s = Ok (st, s') ->
  calm s s' \/ exists h, explained s [Opened h a] [] s' /\ mask s' = mask s.
Proof.
  intros now a try s st s' C HE H0. pose proof H0 as H. apply accept_effect in H; auto. unfold accept_connection in H0. fold (accepted_role s try) in H0.
  destruct (paged_by a s) eqn:PB.
  - destruct (has_acl_with a s) eqn:HA; [injection H0 as <- <-; left; calm_tac|]. apply has_acl_with_spec in HA.
    right. destruct H as [(P & _)|(_ & _ & _ & _ & h & N & R & E1 & _ & E2 & _)].
    + exfalso. unbind H0. injection H0 as <- <-. destruct (open_effect order _ _ _ _ _ _ _ _ C E E0) as (_ & _ & l & ->).
      apply add_link_effect in E1. destruct E1 as (_ & ->).
      revert P. unfold peers. cbv zeta.
      repeat match goal with |- context [if ?b then _ else _] => destruct b end; fields; rewrite map_app; intros P;
        apply (f_equal (@List.length addr)) in P; rewrite app_length in P; cbn in P; lia.
    + exists h. split; [split|].
      * apply happen_one. eapply opened_happens; eauto.
      * intros. unbind H0. injection H0 as <- <-.
        destruct (open_effect order _ _ _ _ _ _ _ _ C E E0) as (_ & _ & l & ->).
        apply add_link_effect in E3. destruct E3 as (_ & ->).
        assert (n = h).
        { revert E1. cbv zeta. repeat match goal with |- context [if ?b then _ else _] => destruct b end; fields; intros E1;
            apply app_inj_tail in E1; destruct E1 as (_ & E1); congruence. }
        subst n. clear - HE. cbv zeta.
        change (unmasked (with_links ?x ?y) 3) with (unmasked y 3).
        match goal with |- context [unmasked (if ?b then tell ?x ?y ?z else ?z) 3] => assert (U : unmasked (if b then tell x y z else z) 3 = true) by (destruct b; apply HE); rewrite U end.
        rewrite (tt_queue _ _ (transmit now (to_peer s a (PageResponse try))
          (tell now (ConnectionComplete SUCCESS h a LINK_ACL) (if role_eqb (accepted_role s try) CENTRAL && unmasked s 18 then tell now (RoleChange SUCCESS a (accepted_role s try))
             (schedule (now + 1500000) (CheckLink h) s) else schedule (now + 1500000) (CheckLink h) s)))).
        2: { match goal with |- queue (with_page_scan None (if ?b then _ else _)) = _ => destruct b end; unfold unmasked; fields;
             match goal with |- context [if ?b then _ else _] => destruct b end; reflexivity. }
        unfold transmit, tell. rewrite !tt_schedule. destruct (_ && _); rewrite ?tt_schedule; unfold happened; cbn; lia.
      * unbind H0. injection H0 as <- <-.
        destruct (open_effect order _ _ _ _ _ _ _ _ C E E0) as (_ & _ & l & ->).
        apply add_link_effect in E3. destruct E3 as (_ & ->). cbv zeta.
        repeat match goal with |- context [if ?b then _ else _] => destruct b end; reflexivity.
  - left. destruct (sco_of order a s) as [[h c]|]; [|injection H0 as <- <-; calm_tac].
    destruct (is_pending c); [|injection H0 as <- <-; calm_tac].
    unbind H0. injection H0 as <- <-. apply accept_negotiated_calm in E. destruct o; calm_tac.
Qed.

Lemma page_ended : forall s s' st a p, page s = Some p -> page_peer p = a -> acls s' = acls s -> page s' = None ->
  happen (seen s) [PageEnded st a] (seen s').
Proof.
  intros s s' st a p E E1 E2 E3. apply happen_one. unfold seen. rewrite E, E2, E3. cbn [option_map]. rewrite E1. constructor.
Qed.
Lemma paging_some : forall a s, paging a s = true -> exists p, page s = Some p /\ page_peer p = a.
Proof. unfold paging. intros a s. destruct (page s) as [p|]; [|discriminate]. intros E. apply list_eqb_eq in E. eauto. Qed.

Lemma fold_schedule_value : forall (T : Type) (f : bredr -> T -> job) now (l : list T) s cc dc,
  (forall x y, value_of_job cc dc (f x y) = 0%Z) ->
  to_tell cc dc (fold_left (fun s e => schedule now (f s e) s) l s) = to_tell cc dc s.
Proof.
  intros T f now l. induction l as [|x l IH]; cbn [fold_left]; intros s cc dc V; auto. rewrite IH by exact V. rewrite tt_schedule, V. reflexivity.
Qed.

Lemma reset_value : forall now s cc dc, core s -> to_tell cc dc (reset order now s) = to_tell cc dc s.
Proof.
  intros now s cc dc C. unfold reset.
  assert (E1 : to_tell cc dc (disconnect_all order now REMOTE_USER_TERMINATED s) = to_tell cc dc s).
  { unfold disconnect_all, transmit.
    rewrite (fold_schedule_value _ (fun s e => Transmit (to_peer s (acl_peer (snd e)) (Bye REMOTE_USER_TERMINATED)))) by reflexivity.
    apply (fold_schedule_value _ (fun s e => Transmit (to_peer s (sco_peer (snd e)) (ScoBye REMOTE_USER_TERMINATED)))). reflexivity. }
  assert (C1 : core (disconnect_all order now REMOTE_USER_TERMINATED s)).
  { unfold disconnect_all. apply core_fold; [intros; now apply core_schedule|]. apply core_fold; [intros; now apply core_schedule|]. exact C. }
  set (s1 := disconnect_all _ _ _ _) in *. clearbody s1.
  assert (E2 : to_tell cc dc (fold_left (fun s e => stop_stream (snd e) s) (scos s1) s1) = to_tell cc dc s1).
  { assert (G : forall l s0, core s0 -> (forall e, In e l -> In e (scos s0)) -> to_tell cc dc (fold_left (fun s e => stop_stream (snd e) s) l s0) = to_tell cc dc s0).
    { induction l as [|[h c] l IH]; cbn [fold_left]; intros s0 C0 I; auto. rewrite IH.
      - cbn [snd]. eapply tt_stop_stream; [exact C0|apply I; now left].
      - now apply core_stop_stream.
      - intros e J. cbn [snd]. rewrite scos_stop_stream. apply I. now right. }
    apply G; auto. }
  rewrite <- E1, <- E2. apply tt_queue. reflexivity.
Qed.

Lemma command_happens : forall now s c st s' out, core s -> conn s -> heard s -> run_command order cfg now s c = Ok (st, s', out) ->
  exists ls, causes (Command c) (Some st) ls /\ explained s ls out s'.
Proof.
  intros now s c st s' out C K HE H.
  assert (Q : forall s', calm s s' -> explained s [] [] s') by (intros; now apply explained_calm).
  destruct c; cbn [run_command] in H; unfold quiet in H;
    try (injection H as <- <- <-; cbn [fst snd]);
    try (unbind H; injection H as <- <- <-; cbn [fst snd]);
    try (exists []; split; [reflexivity|apply Q; apply (calm_easy s s); try reflexivity; calm_tac]; fail).
  - exists []. split; [reflexivity|]. apply Q. unfold start_inquiry. destruct (_ || _); [calm_tac|]. destruct (inquiry s); calm_tac.
  - exists []. split; [reflexivity|]. apply Q. unfold cancel_inquiry. destruct (inquiry s); calm_tac.
  - unfold create_connection. destruct (page s) eqn:G; [exists []; split; [reflexivity|apply Q; calm_tac]|].
    destruct (has_acl_with a s) eqn:HA; [exists []; split; [reflexivity|apply Q; calm_tac]|].
    destruct (paged_by a s); [exists []; split; [reflexivity|apply Q; calm_tac]|].
    exists [PageStarted a]. split; [reflexivity|]. cbn [fst snd]. split.
    + apply happen_one. unfold seen. fields. rewrite G. cbn [option_map page_peer]. constructor.
      apply has_acl_with_spec in HA. now rewrite map_map.
    + intros. rewrite (tt_queue _ _ s) by reflexivity. unfold happened. cbn. lia.
  - unfold cancel_connection. destruct (paging a s) eqn:P; [|exists []; split; [reflexivity|apply Q; calm_tac]].
    exists [PageEnded UNKNOWN_CONNECTION a]. split; [reflexivity|]. cbn [fst snd].
    destruct (paging_some _ _ P) as (p & E1 & E2). destruct HE as (U & _). rewrite U. split.
    + apply (page_ended s _ _ a p); auto.
    + intros. rewrite (tt_queue _ _ (tell now (ConnectionComplete UNKNOWN_CONNECTION 0 a LINK_ACL) s)) by reflexivity.
      unfold tell. rewrite tt_schedule. unfold happened. cbn. lia.
  - destruct (disconnect_happens _ _ _ _ _ _ _ C HE E) as (ls & A & _ & B & D). exists ls. split; [exact D|]. split; auto.
  - destruct (accept_happens _ _ _ _ _ _ C HE E) as [A|(h & A & _)].
    + exists []. split; [left; reflexivity|now apply Q].
    + exists [Opened h a]. split; [right; eauto|exact A].
  - unfold reject_connection. destruct (paged_by a s); [|exists []; split; [reflexivity|apply Q; calm_tac]].
    exists [Turned reason a]. split; [reflexivity|]. cbn [fst snd]. split.
    + apply happen_one. constructor.
    + intros. rewrite tt_schedule. unfold happened. cbn. lia.
  - exists []. split; [reflexivity|]. apply Q. unfold change_packet_type. destruct (has (acls s) h); calm_tac.
  - exists []. split; [reflexivity|]. apply Q. unfold remote_name. calm_tac.
  - exists []. split; [reflexivity|]. apply Q. unfold ask_peer. destruct (lookup (acls s) h); calm_tac.
  - exists []. split; [reflexivity|]. apply Q. unfold ask_peer. destruct (lookup (acls s) h); calm_tac.
  - exists []. split; [reflexivity|]. apply Q. unfold ask_peer. destruct (lookup (acls s) h); calm_tac.
  - exists []. split; [reflexivity|]. apply Q. unfold ask_peer. destruct (lookup (acls s) h); calm_tac.
  - exists []. split; [reflexivity|]. apply Q. eapply setup_sync_calm; eassumption.
  - exists []. split; [reflexivity|]. apply Q. eapply setup_sync_calm; eassumption.
  - exists []. split; [reflexivity|]. apply Q. eapply accept_sync_calm; eassumption.
  - exists []. split; [reflexivity|]. apply Q. unfold reject_sync. destruct (has_pending_sco order a s); calm_tac.
  - exists []. split; [reflexivity|]. destruct (enhanced_ok p e); [|injection H as <- <- <-; apply Q; calm_tac].
    unbind H. injection H as <- <- <-. apply Q. eapply setup_sync_calm; eassumption.
  - exists []. split; [reflexivity|]. destruct (enhanced_ok p e); [|injection H as <- <- <-; apply Q; calm_tac].
    unbind H. injection H as <- <- <-. apply Q. eapply accept_sync_calm; eassumption.
  - exists []. split; [reflexivity|]. apply Q. unfold qos_setup. destruct (negb _); [calm_tac|]. destruct (2 <? service); calm_tac.
  - exists []. split; [reflexivity|]. destruct (lookup (acls s) h); injection H as <- <- <-; (apply explained_calm; [calm_tac|reflexivity]).
  - exists []. split; [reflexivity|]. apply Q. unfold switch_role. destruct (acl_of a s) as [[h c]|]; [|calm_tac].
    destruct (sco_of order a s); calm_tac.
  - exists []. split; [reflexivity|]. apply Q. unfold write_link_policy. destruct (lookup (acls s) h) as [c|] eqn:L; [|calm_tac].
    destruct (7 <? n); [calm_tac|]. cbn [snd]. apply (calm_put s s h c); auto. calm_tac.
  - exists []. split; [reflexivity|]. destruct (7 <? n); injection H as <- <- <-; apply Q; [calm_tac|].
    apply (calm_easy s s); try reflexivity. calm_tac.
  - exists [Forgotten]. split; [reflexivity|]. split.
    + apply happen_one. constructor.
    + intros. rewrite reset_value by exact C. unfold happened. cbn. lia.
  - exists []. split; [reflexivity|]. split; [constructor|]. intros. rewrite (tt_queue _ _ s) by reflexivity. unfold happened. cbn. lia.
Qed.

Lemma heard_calm : forall now a s, core s -> calm s (heard_from now a s).
Proof.
  intros now a s C. unfold heard_from. destruct (acl_of a s) as [[h c]|] eqn:F; [|calm_tac].
  apply (calm_put s s h c); [calm_tac| |reflexivity]. eapply acl_lookup; eauto.
Qed.
Lemma explained_after : forall s s1 ls out s', calm s s1 -> explained s1 ls out s' -> explained s ls out s'.
Proof. intros s s1 ls out s' (A1 & _ & A3) (B1 & B2). split; [now rewrite <- A1|]. intros. rewrite B2. now rewrite A3. Qed.

Lemma dispatch_happens : forall now rssi p s s' out, core s -> conn s -> heard s -> dispatch order cfg now rssi p s = Ok (s', out) ->
  exists ls, causes (Receive rssi p) None ls /\ explained s ls out s'.
Proof.
  intros now rssi p s s' out C K HE H.
  assert (Q : forall s' out, calm s s' -> (forall cc dc, told cc dc out = 0%Z) -> explained s [] out s') by (intros; now apply explained_calm).
  unfold dispatch in H. unfold causes. destruct (content p) eqn:EC; unfold silent, answering in H;
    try (injection H as <- <-);
    try (exists []; split; [reflexivity|apply Q; [calm_tac|reflexivity]]; fail).
  - exists []. split; [reflexivity|]. apply Q; [calm_tac|]. intros. unfold receive_acl. destruct (acl_of _ s) as [[h c]|]; reflexivity.
  - exists []. split; [reflexivity|]. apply Q; [calm_tac|]. intros. unfold receive_voice. destruct (sco_of order _ s) as [[h c]|]; reflexivity.
  - unbind H. injection H as <- <-. apply bye_effect in E; auto. destruct E as [(_ & ->)|(h & c & _ & L & E1 & _ & ->)].
    + exists []. split; [now left|]. apply Q; [calm_tac|reflexivity].
    + exists [Closed h]. split; [right; eauto|].
      set (s1 := with_links _ _). destruct (tell_disconnection_tables now h reason s1) as (T1 & _ & T3 & _). split.
      * apply happen_one. apply (closed_happens s _ h c); auto; rewrite ?T1, ?T3; reflexivity.
      * intros. rewrite tt_tell_disconnection by apply HE. unfold s1. rewrite (tt_queue _ _ s) by reflexivity. unfold happened. cbn. lia.
  - exists []. split; [reflexivity|]. apply Q; [|reflexivity]. unfold receive_inquiry. calm_tac.
  - exists []. split; [reflexivity|]. apply Q; [calm_tac|]. intros. unfold receive_inquiry_answer, said.
    destruct (_ =? 0); [destruct (unmasked s 2); reflexivity|]. destruct (_ =? 1); [destruct (unmasked s 34); reflexivity|].
    destruct (_ =? 2); reflexivity.
  - exists []. split; [reflexivity|]. injection H as H. unfold receive_page in H.
    destruct (negb (page_scan_enable s)); [injection H as <- <-; apply Q; [calm_tac|reflexivity]|].
    destruct (negb _); [injection H as <- <-; apply Q; [calm_tac|reflexivity]|].
    destruct (has_acl_with _ s); [injection H as <- <-; apply Q; [calm_tac|reflexivity]|].
    destruct (page_scan s); injection H as <- <-; apply Q; try reflexivity; calm_tac.
  - apply response_effect in H; auto. destruct H as [(_ & -> & ->)|(P & _ & h & N & R & E1 & E2 & E3 & _ & E4 & E5 & _ & ->)].
    + exists []. split; [now left|]. apply Q; [calm_tac|reflexivity].
    + exists [Answered h (source p)]. split; [right; eauto|]. split.
      * apply happen_one. destruct (paging_some _ _ P) as (pg & G1 & G2). pose proof (conn_page s K pg G1) as NP.
        unfold seen. rewrite E1, E3, G1, map_app. cbn [map fst snd acl_peer option_map]. rewrite G2 in *.
        constructor; auto; rewrite map_map; auto.
      * intros. unfold to_tell. rewrite E4, tt_insert. cbn [what_to_do value_of_job]. fold (to_tell cc dc s).
        unfold told. rewrite total_app. unfold said. destruct HE as (U & _). rewrite U.
        destruct (role_eqb _ _); [destruct (unmasked s 18)|]; unfold happened; cbn; lia.
  - injection H as H. unfold receive_page_reject in H. destruct (paging (source p) s) eqn:P; injection H as <- <-.
    + exists [PageEnded reason (source p)]. split; [now right|]. destruct (paging_some _ _ P) as (pg & E1 & E2). split.
      * apply (page_ended s _ _ _ pg); auto.
      * intros. rewrite (tt_queue _ _ s) by reflexivity. unfold said. destruct HE as (U & _). rewrite U. unfold happened. cbn. lia.
    + exists []. split; [now left|]. apply Q; [calm_tac|reflexivity].
  - exists []. split; [reflexivity|]. apply Q; [calm_tac|]. intros. unfold said. destruct (unmasked s 7); reflexivity.
  - exists []. split; [reflexivity|]. apply Q; [calm_tac|]. intros. unfold receive_about, said. destruct (acl_of _ s) as [[h c]|]; [|reflexivity]. destruct (unmasked s 11); reflexivity.
  - exists []. split; [reflexivity|]. apply Q; [calm_tac|]. intros. unfold said. destruct (unmasked s 61); reflexivity.
  - unbind H. injection H as <- <-. unfold receive_extended_request in E. destruct (get_features cfg s page); [|discriminate].
    injection E as <-. exists []. split; [reflexivity|]. apply Q; [calm_tac|reflexivity].
  - exists []. split; [reflexivity|]. apply Q; [calm_tac|]. intros. unfold receive_about, said. destruct (acl_of _ s) as [[h c]|]; [|reflexivity]. destruct (unmasked s 35); reflexivity.
  - exists []. split; [reflexivity|]. apply Q; [calm_tac|]. intros. unfold receive_about, said. destruct (acl_of _ s) as [[h c]|]; [|reflexivity]. destruct (unmasked s 12); reflexivity.
  - exists []. split; [reflexivity|]. apply Q; [calm_tac|]. intros. unfold receive_about, said. destruct (acl_of _ s) as [[h c]|]; [|reflexivity]. destruct (unmasked s 28); reflexivity.
  - exists []. split; [reflexivity|]. unfold receive_sco_request in H.
    destruct (has_pending_sco order (source p) s); [injection H as <- <-; apply Q; [calm_tac|reflexivity]|].
    unbind H. injection H as <- <-. unfold create_sco in E. destruct (get_unused_handle _ _ _ _) as [[h' l]|]; [|discriminate].
    injection E as <- <-. apply Q; [calm_tac|reflexivity].
  - exists []. split; [reflexivity|]. unfold receive_sco_response in H.
    destruct (sco_of order (source p) s) as [[h c]|]; [|injection H as <- <-; apply Q; [calm_tac|reflexivity]].
    destruct (st =? SUCCESS).
    + unbind H. injection H as <- <-. unfold accept_given in E. apply opens_calm in E. apply Q.
      * eapply calm_trans; [|exact E]. calm_tac.
      * intros. destruct (sco_legacy c); reflexivity.
    + no_stream H. injection H as <- <-. apply Q; [calm_tac|]. intros. destruct (sco_legacy c); reflexivity.
  - unfold receive_sco_bye. destruct (sco_of order (source p) s) as [[h c]|] eqn:F; [|exists []; split; [now left|apply Q; [calm_tac|reflexivity]]].
    exists [SyncClosed h]. split; [right; eauto|].
    assert (A : calm s (close_sco h s)) by (apply calm_close_sco; auto; calm_tac). destruct A as (A1 & A2 & A3).
    destruct (tell_disconnection_tables now h reason (close_sco h s)) as (T1 & _ & T3 & _). split.
    + unfold seen at 2. rewrite T1, T3. fold (seen (close_sco h s)). rewrite A1. apply happen_one. constructor.
      apply (sco_range s h c); auto. eapply sco_lookup; eauto.
    + intros. rewrite tt_tell_disconnection by (unfold unmasked; rewrite A2; apply HE). rewrite A3. unfold happened. cbn. lia.
  - exists []. split; [reflexivity|]. apply Q; [|reflexivity]. unfold receive_switch_request. destruct (acl_of (source p) s) as [[h c]|] eqn:F; [|calm_tac].
    destruct (acl_lookup _ _ _ _ C F) as (L & _). destruct (N.testbit _ 0); [|calm_tac].
    set (t := transmit _ _ _).
    assert (A : calm s (with_acls (put (acls t) h (with_acl_role (other (acl_role c)) c)) t)) by (apply (calm_put s t h c); [unfold t; calm_tac|exact L|reflexivity]).
    calm_tac.
  - exists []. split; [reflexivity|]. apply Q; [|reflexivity]. unfold receive_switch_response. destruct (acl_of (source p) s) as [[h c]|] eqn:F; [|calm_tac].
    destruct (acl_lookup _ _ _ _ C F) as (L & _). cbv zeta.
    assert (A : calm s (with_acls (put (acls s) h (with_acl_role (if st =? SUCCESS then other (acl_role c) else acl_role c) c)) s))
      by (apply (calm_put s s h c); [calm_tac|exact L|reflexivity]).
    match goal with |- calm _ (if ?b then _ else _) => destruct b end; auto. apply calm_schedule; [reflexivity|exact A].
Qed.

Lemma receive_happens : forall now rssi p s s' out, core s -> conn s -> heard s -> receive order cfg now rssi p s = Ok (s', out) ->
  exists ls, causes (Receive rssi p) None ls /\ explained s ls out s'.
Proof.
  intros now rssi p s s' out C K HE. unfold receive. destruct (for_me p s).
  - intros H. apply dispatch_happens in H.
    + destruct H as (ls & A & B). exists ls. split; [exact A|]. eapply explained_after; [apply heard_calm; exact C|exact B].
    + now apply core_heard.
    + eapply conn_alike; [now apply heard_alike|exact K].
    + destruct (heard_calm now (source p) s C) as (_ & M & _). apply heard_mask. rewrite M. now apply heard_mask.
  - intros [= <- <-]. exists []. split; [|apply explained_calm; [calm_tac|reflexivity]].
    unfold causes. destruct (content p); auto.
Qed.

Lemma run_tasks_happens : forall now limit fuel s s' out, core s -> heard s -> run_tasks order now limit fuel s = Ok (s', out) ->
  exists ls, Forall ends_link ls /\ mask s' = mask s /\ explained s ls out s'.
Proof.
  intros now limit. induction fuel as [|fuel IH]; cbn [run_tasks]; intros s s' out C HE H.
  - injection H as <- <-. exists []. split; [constructor|]. split; auto. apply explained_calm; [calm_tac|reflexivity].
  - destruct (queue s) as [|t q] eqn:EQ.
    + injection H as <- <-. exists []. split; [constructor|]. split; auto. apply explained_calm; [calm_tac|reflexivity].
    + destruct ((due t <=? now) && (ident t <? limit)).
      2: { injection H as <- <-. exists []. split; [constructor|]. split; auto. apply explained_calm; [calm_tac|reflexivity]. }
      unbind H. injection H as <- <-.
      assert (J : exists ls, Forall ends_link ls /\ mask b = mask s /\ explained s ls l b).
      { assert (TT : forall cc dc, to_tell cc dc s = (value_of_job cc dc (what_to_do t) + to_tell cc dc (with_queue q s))%Z)
          by (intros; unfold to_tell at 1; rewrite EQ; reflexivity).
        unfold run_job in E. destruct (what_to_do t) eqn:W; unfold silent, answering in E.
        - injection E as <- <-. exists []. split; [constructor|]. split; auto. split; [constructor|]. intros. rewrite TT. unfold happened. cbn. lia.
        - injection E as <- <-. exists []. split; [constructor|]. split; auto. split; [constructor|]. intros. rewrite TT. unfold happened. cbn. lia.
        - injection E as <- <-. exists []. split; [constructor|]. split; auto. split; [constructor|]. intros. rewrite TT. unfold said. destruct (unmasked _ 29); unfold happened; cbn; lia.
        - unfold reject_page in E. injection E as <- <-. exists []. split; [constructor|]. split; auto. split; [constructor|]. intros. rewrite TT.
          unfold said. destruct HE as (U & _). change (unmasked (with_queue q s) 3) with (unmasked s 3). rewrite U.
          unfold transmit. rewrite tt_schedule. unfold happened. cbn. lia.
        - unbind E. injection E as <- <-. apply check_happens in E1; [|eapply core_pop; eassumption|exact HE].
          destruct E1 as (ls & A & B & (D1 & D2)). exists ls. split; auto. split; auto. split; [exact D1|]. intros. rewrite TT, D2. cbn. lia.
        - injection E as <- <-. exists []. split; [constructor|]. unfold send_sco.
          change (scos (with_queue q s)) with (scos s). destruct (lookup (scos s) h) as [c|].
          + split; [reflexivity|]. split; [constructor|]. intros. rewrite TT. unfold to_tell at 1. fields. rewrite !tt_insert. fields.
            unfold to_tell, happened, total. cbn. lia.
          + split; [reflexivity|]. split; [constructor|]. intros. rewrite TT. unfold to_tell at 1. fields. rewrite !tt_insert. fields.
            unfold to_tell, happened, total. cbn. lia. }
      destruct J as (ls & A & B & (D1 & D2)). assert (C1 : core b) by (eapply core_run_job; eassumption).
      destruct (IH _ _ _ C1 (proj2 (heard_mask b) (eq_ind_r heard_bits (proj1 (heard_mask s) HE) B)) E0) as (ls' & A' & B' & (D1' & D2')).
      exists (ls ++ ls'). split; [apply Forall_app; auto|]. split; [congruence|]. split; [eapply happen_app; eassumption|].
      intros. unfold told, happened. rewrite !total_app. specialize (D2 cc dc). specialize (D2' cc dc). unfold told, happened in *. lia.
Qed.

Lemma tick_happens : forall now s s' out, core s -> heard s -> tick order now s = Ok (s', out) ->
  exists ls, causes Tick None ls /\ explained s ls out s'.
Proof.
  intros now s s' out C HE H. unfold tick in H. unbind H. injection H as <- <-.
  destruct (run_tasks_happens _ _ _ _ _ _ C HE E) as (ls & A & M & (D1 & D2)).
  assert (P : exists ts, Forall is_timeout ts /\ (List.length ts <= 1)%nat /\ explained b ts l0 b0).
  { unfold do_paging in E0. destruct (page b) as [p|] eqn:G; [|injection E0 as <- <-; exists []; split; [constructor|split; [cbn; lia|]]; apply explained_calm; [calm_tac|reflexivity]].
    destruct (page_deadline p <=? now).
    - injection E0 as <- <-. exists [PageEnded PAGE_TIMEOUT (page_peer p)]. split; [repeat constructor|]. split; [cbn; lia|].
      split; [apply (page_ended b _ _ _ p); auto|]. intros. rewrite (tt_queue _ _ b) by reflexivity. unfold happened. cbn. lia.
    - exists []. split; [constructor|]. split; [cbn; lia|]. destruct (_ && _); injection E0 as <- <-; [|apply explained_calm; [calm_tac|reflexivity]].
      apply explained_calm; [|reflexivity]. split; [|split].
      + unfold seen. fields. rewrite G. reflexivity.
      + reflexivity.
      + intros. rewrite (tt_queue _ _ (transmit now (to_peer b (page_peer p) (Page (class b) (page_allow p))) b)) by reflexivity.
        unfold transmit. now rewrite tt_schedule. }
  destruct P as (ts & T1 & T2 & (F1 & F2)).
  assert (I : calm b0 b1 /\ forall cc dc, told cc dc l1 = 0%Z).
  { unfold do_inquiry in E1. destruct (inquiry b0) as [i|]; [|injection E1 as <- <-; split; [calm_tac|reflexivity]].
    destruct (_ <=? _); [injection E1 as <- <-; split; [calm_tac|]; intros; unfold said; destruct (unmasked b0 1); reflexivity|].
    destruct (_ <=? _); injection E1 as <- <-; (split; [calm_tac|reflexivity]). }
  destruct I as ((I1 & I2 & I3) & I4). exists (ls ++ ts). split; [exists ls, ts; auto|]. split.
  - rewrite I1. eapply happen_app; eassumption.
  - intros. specialize (D2 cc dc). specialize (F2 cc dc). specialize (I3 cc dc). specialize (I4 cc dc).
    unfold told, happened in *. rewrite !total_app. lia.
Qed.

Theorem step_happens : forall now s o s' st out, core s -> conn s -> heard s -> step order cfg now s o = Ok (s', st, out) ->
  exists ls, causes o st ls /\ explained s ls out s'.
Proof.
  intros now s o s' st out C K HE H. destruct o; cbn [step] in H; unbind H.
  - injection H as <- <- <-. eapply command_happens; eassumption.
  - injection H as <- <- <-. exists []. split; [reflexivity|]. unfold handle_acl in E. destruct (negb _); [discriminate|]. injection E as <-.
    apply explained_calm; [|reflexivity]. destruct (lookup (acls s) h); calm_tac.
  - injection H as <- <- <-. exists []. split; [reflexivity|]. apply explained_calm; [|reflexivity]. unfold send_sco. destruct (lookup (scos s) h); calm_tac.
  - injection H as <- <- <-. eapply receive_happens; eassumption.
  - injection H as <- <- <-. eapply tick_happens; eassumption.
Qed.

(** The mask changes only when the host sets it *)
Lemma heard_command : forall now s c st s' out, core s -> heard s -> audible (Command c) ->
  run_command order cfg now s c = Ok (st, s', out) -> heard s'.
Proof.
  intros now s c st s' out C HE A H.
  destruct c; cbn [run_command] in H; unfold quiet in H;
    try (injection H as <- <- <-; cbn [fst snd]);
    try (unbind H; injection H as <- <- <-; cbn [fst snd]);
    try (exact HE).
  - unfold start_inquiry. destruct (_ || _); [exact HE|]. destruct (inquiry s); exact HE.
  - unfold cancel_inquiry. destruct (inquiry s); exact HE.
  - unfold create_connection. destruct (page s); [exact HE|]. destruct (has_acl_with a s); [exact HE|]. destruct (paged_by a s); exact HE.
  - unfold cancel_connection. destruct (paging a s); [|exact HE]. cbn [snd]. destruct (unmasked s 3); exact HE.
  - destruct (disconnect_happens _ _ _ _ _ _ _ C HE E) as (_ & _ & M & _). now apply (heard_kept s).
  - destruct (accept_happens _ _ _ _ _ _ C HE E) as [B|(h & _ & M)]; [now apply (calm_heard s)|now apply (heard_kept s)].
  - unfold reject_connection. destruct (paged_by a s); exact HE.
  - unfold change_packet_type. destruct (has (acls s) h); exact HE.
  - unfold ask_peer. destruct (lookup (acls s) h); exact HE.
  - unfold ask_peer. destruct (lookup (acls s) h); exact HE.
  - unfold ask_peer. destruct (lookup (acls s) h); exact HE.
  - unfold ask_peer. destruct (lookup (acls s) h); exact HE.
  - apply setup_sync_calm in E. now apply (calm_heard s).
  - apply setup_sync_calm in E. now apply (calm_heard s).
  - apply accept_sync_calm in E. now apply (calm_heard s).
  - unfold reject_sync. destruct (has_pending_sco order a s); [|exact HE]. apply (calm_heard s); auto. calm_tac.
  - destruct (enhanced_ok p e); [|now injection H as <- <- <-]. unbind H. injection H as <- <- <-. apply setup_sync_calm in E. now apply (calm_heard s).
  - destruct (enhanced_ok p e); [|now injection H as <- <- <-]. unbind H. injection H as <- <- <-. apply accept_sync_calm in E. now apply (calm_heard s).
  - unfold qos_setup. destruct (negb _); [exact HE|]. destruct (2 <? service); [exact HE|]. cbn [snd]. destruct (unmasked s 13); exact HE.
  - destruct (lookup (acls s) h); now injection H as <- <- <-.
  - unfold switch_role. destruct (acl_of a s) as [[h c]|]; [|exact HE]. destruct (sco_of order a s); [exact HE|]. cbn [snd].
    destruct (negb _); [exact HE|]. destruct (unmasked s 18); exact HE.
  - unfold write_link_policy. destruct (lookup (acls s) h) as [c|]; [|exact HE]. destruct (7 <? n); exact HE.
  - destruct (7 <? n); now injection H as <- <- <-.
  - split; reflexivity.
  - exact A.
Qed.

Lemma heard_dispatch : forall now rssi p s s' out, core s -> heard s -> dispatch order cfg now rssi p s = Ok (s', out) -> heard s'.
Proof.
  intros now rssi p s s' out C HE H. unfold dispatch in H. destruct (content p); unfold silent, answering in H;
    try (injection H as <- <-); try exact HE.
  - unbind H. injection H as <- <-. apply bye_effect in E; auto. destruct E as [(_ & ->)|(h & c & _ & _ & _ & _ & ->)]; [exact HE|].
    unfold tell_disconnection. destruct (unmasked _ 5); exact HE.
  - unfold receive_inquiry. apply (calm_heard s); auto. calm_tac.
  - injection H as H. unfold receive_page in H. destruct (negb (page_scan_enable s)); [now injection H as <- <-|].
    destruct (negb _); [now injection H as <- <-|]. destruct (has_acl_with _ s); [now injection H as <- <-|]. destruct (page_scan s); now injection H as <- <-.
  - apply response_effect in H; auto. destruct H as [(_ & -> & _)|(_ & _ & h & _ & _ & _ & _ & _ & _ & _ & M & _)]; auto. now apply (heard_kept s).
  - injection H as H. unfold receive_page_reject in H. destruct (paging (source p) s); now injection H as <- <-.
  - unbind H. injection H as <- <-. unfold receive_extended_request in E. destruct (get_features cfg s page); [|discriminate]. now injection E as <-.
  - unfold receive_sco_request in H. destruct (has_pending_sco order (source p) s); [now injection H as <- <-|].
    unbind H. injection H as <- <-. unfold create_sco in E. destruct (get_unused_handle _ _ _ _) as [[h' l]|]; [|discriminate]. now injection E as <- <-.
  - unfold receive_sco_response in H. destruct (sco_of order (source p) s) as [[h c]|]; [|now injection H as <- <-].
    destruct (st =? SUCCESS).
    + unbind H. injection H as <- <-. unfold accept_given in E. apply opens_calm in E. eapply calm_heard; [|exact E]. exact HE.
    + no_stream H. injection H as <- <-. apply (calm_heard s); auto. calm_tac.
  - unfold receive_sco_bye. destruct (sco_of order (source p) s) as [[h c]|]; [|exact HE].
    assert (HC : heard (close_sco h s)) by (apply (calm_heard s); auto; apply calm_close_sco; auto; calm_tac).
    unfold tell_disconnection. destruct (unmasked _ 5); exact HC.
  - unfold receive_switch_request. destruct (acl_of (source p) s) as [[h c]|]; [|exact HE]. destruct (N.testbit _ 0); [|exact HE].
    cbv zeta. destruct (unmasked _ 18); exact HE.
  - unfold receive_switch_response. destruct (acl_of (source p) s) as [[h c]|]; [|exact HE]. cbv zeta. destruct (unmasked _ 18); exact HE.
Qed.

Theorem heard_step : forall now s o s' st out, core s -> heard s -> audible o -> step order cfg now s o = Ok (s', st, out) -> heard s'.
Proof.
  intros now s o s' st out C HE A H. destruct o; cbn [step] in H; unbind H; injection H as <- <- <-.
  - eapply heard_command; eassumption.
  - unfold handle_acl in E. destruct (negb _); [discriminate|]. injection E as <-. destruct (lookup (acls s) h); exact HE.
  - unfold send_sco. destruct (lookup (scos s) h); exact HE.
  - unfold receive in E. destruct (for_me p s); [|now injection E as <- <-]. eapply heard_dispatch; [..|exact E].
    + now apply core_heard.
    + eapply calm_heard; [exact HE|]. now apply heard_calm.
  - unfold tick in E. unbind E. injection E as <- <-. destruct (run_tasks_happens _ _ _ _ _ _ C HE E0) as (_ & _ & M & _).
    assert (H1 : heard b0) by (now apply (heard_kept s)).
    assert (H2 : heard b1).
    { unfold do_paging in E1. destruct (page b0) as [p|]; [|now injection E1 as <- <-]. destruct (_ <=? _); [now injection E1 as <- <-|].
      destruct (_ && _); now injection E1 as <- <-. }
    unfold do_inquiry in E2. destruct (inquiry b1) as [i|]; [|now injection E2 as <- <-]. destruct (_ <=? _); [now injection E2 as <- <-|].
    destruct (_ <=? _); now injection E2 as <- <-.
Qed.

Lemma heard_new : forall a, heard (new_bredr a).
Proof. intros a. split; reflexivity. Qed.

(** * Histories *)


Lemma heard_history : forall h s, history order cfg h s -> (forall e, In e h -> audible (what e)) -> heard s.
Proof.
  intros h s H. induction H; intros A; [apply heard_new|].
  eapply heard_step; [eapply core_history; eassumption| | |eassumption].
  - apply IHhistory. intros e I. apply A. now right.
  - apply (A (Entry now o st out)). now left.
Qed.

Theorem history_explained : forall h s, history order cfg h s -> (forall e, In e h -> audible (what e)) ->
  exists lss, explains h lss (seen s) /\
    forall cc dc, (total (fun e => told cc dc (sent e)) h + to_tell cc dc s = total (happened cc dc) lss)%Z.
Proof.
  intros h s H. induction H; intros A.
  - exists []. split; [constructor|reflexivity].
  - destruct IHhistory as (lss & E & T); [intros e I; apply A; now right|].
    assert (HE : heard s) by (apply (heard_history h); auto; intros e I; apply A; now right).
    destruct (step_happens _ _ _ _ _ _ (core_history order cfg any_order h s H) (conn_history order cfg any_order h s H) HE H0) as (ls & B & (D1 & D2)).
    exists (ls :: lss). split; [econstructor; eassumption|]. intros. specialize (T cc dc). specialize (D2 cc dc).
    rewrite !total_cons. cbn [sent]. lia.
Qed.
End WithOrder.
