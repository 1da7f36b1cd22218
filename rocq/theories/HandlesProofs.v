From Coq Require FinFun.
From Verif Require Import Prelude Handles HandlesSpec.
Open Scope N_scope.
Ltac Zify.zify_post_hook ::= Z.div_mod_to_equations.

Section Tables.
Context {C : Type}.
Implicit Types m : table C.

Lemma has_spec m h : has m h = true <-> In h (keys m).
Proof.
  unfold has, keys. rewrite existsb_exists, in_map_iff. split.
  - intros (e & Hi & E). apply N.eqb_eq in E. exists e; auto.
  - intros (e & E & Hi). exists e. split; [exact Hi|]. now apply N.eqb_eq.
Qed.

Lemma has_false m h : has m h = false <-> ~ In h (keys m).
Proof. rewrite <- has_spec. destruct (has m h); split; congruence. Qed.

Lemma lookup_none m h : lookup m h = None <-> ~ In h (keys m).
Proof.
  induction m as [|[k c] m IH]; cbn; [tauto|].
  destruct (N.eqb_spec k h) as [->|E]; split; intros H; try discriminate.
  - exfalso; apply H; auto.
  - intros [K|K]; [congruence|]. now apply IH in H.
  - apply IH. tauto.
Qed.

Lemma lookup_in m h c : lookup m h = Some c -> In h (keys m).
Proof.
  intros H. destruct (in_dec N.eq_dec h (keys m)) as [K|K]; [exact K|].
  apply lookup_none in K. congruence.
Qed.

Lemma in_lookup m h : In h (keys m) -> exists c, lookup m h = Some c.
Proof.
  intros H. destruct (lookup m h) eqn:E; [eauto|]. apply lookup_none in E. contradiction.
Qed.

Lemma keys_erase m h : keys (erase m h) = filter (fun k => negb (k =? h)) (keys m).
Proof.
  unfold keys, erase. induction m as [|[k c] m IH]; cbn; [reflexivity|].
  destruct (k =? h); cbn; now rewrite IH.
Qed.

Lemma in_keys_erase m h k : In k (keys (erase m h)) <-> In k (keys m) /\ k <> h.
Proof. rewrite keys_erase, filter_In, negb_true_iff, N.eqb_neq. tauto. Qed.

Lemma nodup_erase m h : NoDup (keys m) -> NoDup (keys (erase m h)).
Proof. rewrite keys_erase. apply NoDup_filter. Qed.

Lemma lookup_erase m h k : lookup (erase m h) k = if k =? h then None else lookup m k.
Proof.
  induction m as [|[x c] m IH]; [cbn; now destruct (k =? h)|].
  unfold erase in *. cbn [filter fst].
  destruct (N.eqb_spec x h) as [->|E]; cbn [negb lookup].
  - rewrite IH. destruct (N.eqb_spec k h) as [E2|E2]; [reflexivity|].
    destruct (N.eqb_spec h k); congruence.
  - rewrite IH. destruct (N.eqb_spec x k) as [E2|E2]; [|reflexivity].
    destruct (N.eqb_spec k h); congruence.
Qed.

Lemma keys_update m h c : keys (update m h c) = keys m.
Proof.
  unfold keys. induction m as [|[k x] m IH]; cbn; [reflexivity|].
  destruct (k =? h); cbn; now rewrite ?IH.
Qed.

Lemma lookup_update m h c k : lookup (update m h c) k =
  if k =? h then match lookup m h with Some _ => Some c | None => None end else lookup m k.
Proof.
  induction m as [|[x y] m IH]; cbn; [now destruct (k =? h)|].
  destruct (N.eqb_spec x h) as [->|E]; cbn.
  - destruct (N.eqb_spec k h) as [E2|E2].
    + subst k. now rewrite N.eqb_refl.
    + destruct (N.eqb_spec h k); congruence.
  - rewrite IH. destruct (N.eqb_spec x k) as [E2|E2]; [|reflexivity].
    destruct (N.eqb_spec k h); [congruence|reflexivity].
Qed.

Lemma find_key_spec (p : C -> bool) m h : find_key p m = Some h ->
  exists c, In (h, c) m /\ p c = true.
Proof.
  induction m as [|[k c] m IH]; cbn; [discriminate|].
  destruct (p c) eqn:E.
  - intros H; injection H as ->. eauto.
  - intros H. destruct (IH H) as (c' & Hi & Hp). eauto.
Qed.

Lemma find_key_none (p : C -> bool) m : find_key p m = None ->
  forall h c, In (h, c) m -> p c = false.
Proof.
  induction m as [|[k c] m IH]; cbn; [tauto|].
  destruct (p c) eqn:E; [discriminate|]. intros H h c' [K|K]; [congruence|eauto].
Qed.

Lemma in_lookup_nodup m h c : NoDup (keys m) -> In (h, c) m -> lookup m h = Some c.
Proof.
  induction m as [|[k x] m IH]; cbn; [tauto|].
  intros HN [E|Hi]; inversion HN as [|? ? Hn HN']; subst.
  - injection E as -> ->. now rewrite N.eqb_refl.
  - destruct (N.eqb_spec k h) as [->|E]; [|auto].
    exfalso. apply Hn. apply in_map_iff. exists (h, c). auto.
Qed.

Lemma lookup_in_pair m h c : lookup m h = Some c -> In (h, c) m.
Proof.
  induction m as [|[k x] m IH]; cbn; [discriminate|].
  destruct (N.eqb_spec k h) as [->|E]; intros H; [injection H as ->; auto|auto].
Qed.

(** ---- Allocation ---- *)

Variables s e : N.
Hypothesis width : e = s + 255.

Definition in_range (h : N) := s <= h <= e.

Lemma next_in_range last : in_range last -> in_range (next_handle s e last).
Proof. unfold in_range, next_handle. destruct (N.ltb_spec e (last + 1)); lia. Qed.

Lemma search_sound m fuel : forall last h, in_range last -> search m s e fuel last = Some h ->
  in_range h /\ ~ In h (keys m).
Proof.
  induction fuel as [|f IH]; intros last h Hl E; cbn in E; [discriminate|].
  destruct (has m last) eqn:Eh.
  - eapply IH; [|exact E]. now apply next_in_range.
  - injection E as <-. apply has_false in Eh. auto.
Qed.

(** The k-th handle visited from [last]. *)
Definition visit (last : N) (k : nat) : N := s + (last - s + N.of_nat k) mod 256.

Lemma visit_S last k : in_range last -> visit last (S k) = visit (next_handle s e last) k.
Proof.
  intros H. unfold in_range in H. unfold visit, next_handle.
  destruct (N.ltb_spec e (last + 1)) as [Hlt|Hge].
  - assert (Hl : last = e) by lia. clear Hlt. rewrite Hl, width.
    replace (s + 255 - s + N.of_nat (S k)) with (N.of_nat k + 1 * 256) by lia.
    rewrite N.mod_add by discriminate. do 2 f_equal. lia.
  - do 2 f_equal. lia.
Qed.

Lemma search_finds m k : forall fuel last, in_range last -> (k < fuel)%nat ->
  ~ In (visit last k) (keys m) -> exists h, search m s e fuel last = Some h.
Proof.
  induction k as [|k IH]; intros fuel last Hl Hf Hn; (destruct fuel as [|f]; [lia|]); cbn [search].
  - destruct (has m last) eqn:Eh; [|eauto].
    exfalso. apply Hn. apply has_spec in Eh. unfold visit, in_range in *.
    replace (s + (last - s + N.of_nat 0) mod 256) with last; [exact Eh|].
    rewrite N.mod_small by lia. lia.
  - destruct (has m last) eqn:Eh; [|eauto].
    apply IH; [now apply next_in_range|lia|]. now rewrite <- visit_S.
Qed.

Lemma visit_onto last h : in_range last -> in_range h -> exists k, (k < 256)%nat /\ visit last k = h.
Proof.
  unfold in_range, visit. intros Hl Hh.
  exists (N.to_nat ((h - s + 256 - (last - s)) mod 256)).
  rewrite N2Nat.id. split; [|lia]. lia.
Qed.

Lemma search_complete m last h : in_range last -> in_range h -> ~ In h (keys m) ->
  exists h', search m s e 256 last = Some h'.
Proof.
  intros Hl Hh Hn. destruct (visit_onto last h Hl Hh) as (k & Hk & E).
  eapply search_finds; [exact Hl|exact Hk|]. now rewrite E.
Qed.

(** When the search over the whole range fails, the loop never exits. *)
Lemma search_none_full m last : in_range last -> search m s e 256 last = None ->
  forall h, in_range h -> In h (keys m).
Proof.
  intros Hl E h Hh. destruct (in_dec N.eq_dec h (keys m)) as [K|K]; [exact K|].
  destruct (search_complete m last h Hl Hh K) as [h' E']. congruence.
Qed.

Lemma full_never_returns m : (forall h, in_range h -> In h (keys m)) ->
  forall fuel last, in_range last -> search m s e fuel last = None.
Proof.
  intros Hf fuel. induction fuel as [|f IH]; intros last Hl; cbn; [reflexivity|].
  rewrite (proj2 (has_spec m last) (Hf last Hl)). apply IH. now apply next_in_range.
Qed.

(** Pigeonhole: fewer than 256 handles leave one free. *)
Definition range_list : list N := map (fun n => s + N.of_nat n) (seq 0 256).

Lemma range_list_spec h : In h range_list <-> in_range h.
Proof.
  unfold range_list, in_range. rewrite in_map_iff. split.
  - intros (n & <- & Hi). apply in_seq in Hi. lia.
  - intros H. exists (N.to_nat (h - s)). split; [lia|]. apply in_seq. lia.
Qed.

Lemma range_list_nodup : NoDup range_list.
Proof.
  unfold range_list. apply FinFun.Injective_map_NoDup; [|apply seq_NoDup].
  intros x y E. lia.
Qed.

Lemma range_list_length : length range_list = 256%nat.
Proof. unfold range_list. now rewrite map_length, seq_length. Qed.

Lemma pigeonhole m : (length m < 256)%nat -> exists h, in_range h /\ ~ In h (keys m).
Proof.
  intros L.
  destruct (forallb (fun h => has m h) range_list) eqn:Ef.
  - exfalso. rewrite forallb_forall in Ef.
    assert (K : incl range_list (keys m)) by (intros h Hh; apply has_spec, Ef, Hh).
    apply NoDup_incl_length in K; [|apply range_list_nodup].
    rewrite range_list_length in K. unfold keys in K. rewrite map_length in K. lia.
  - assert (exists h, In h range_list /\ has m h = false) as (h & Hi & Hh).
    { revert Ef. generalize range_list. induction l as [|x l IH]; cbn; [discriminate|].
      destruct (has m x) eqn:Ex; cbn; intros Ef.
      - destruct (IH Ef) as (h & Hi & Hh). eauto.
      - eauto. }
    exists h. split; [now apply range_list_spec|now apply has_false].
Qed.

Record tinv m (last : N) : Prop := {
  tinv_nodup : NoDup (keys m);
  tinv_range : forall h, In h (keys m) -> in_range h;
  tinv_last : in_range last
}.

Lemma alloc_some m last h last' : tinv m last -> get_unused_handle m s e last = Some (h, last') ->
  in_range h /\ ~ In h (keys m) /\ in_range last'.
Proof.
  intros HI E. unfold get_unused_handle in E.
  destruct (search m s e 256 last) as [x|] eqn:Es; [|discriminate].
  injection E as <- <-.
  destruct (search_sound m 256 last x (tinv_last _ _ HI) Es) as [H1 H2].
  split; [exact H1|]. split; [exact H2|]. now apply next_in_range.
Qed.

Lemma tinv_add m last h last' c : tinv m last -> get_unused_handle m s e last = Some (h, last') ->
  tinv ((h, c) :: m) last'.
Proof.
  intros HI E. destruct (alloc_some _ _ _ _ HI E) as (H1 & H2 & H3).
  constructor; [|intros k [<-|Hk]; [exact H1|now apply (tinv_range _ _ HI)]|exact H3].
  cbn. constructor; [exact H2|apply (tinv_nodup _ _ HI)].
Qed.

Lemma tinv_erase m last h : tinv m last -> tinv (erase m h) last.
Proof.
  intros HI. constructor; [apply nodup_erase, (tinv_nodup _ _ HI)| |apply (tinv_last _ _ HI)].
  intros k Hk. apply in_keys_erase in Hk as [Hk _]. now apply (tinv_range _ _ HI).
Qed.

Lemma tinv_update m last h c : tinv m last -> tinv (update m h c) last.
Proof.
  intros [H1 H2 H3]. constructor; rewrite ?keys_update; assumption.
Qed.
End Tables.

Record Inv (s : handler) : Prop := {
  inv_acl : tinv 0 255 (acls s) (last_acl s);
  inv_sco : tinv 256 511 (scos s) (last_sco s);
  inv_le : tinv 512 767 (les s) (last_le s)
}.

Lemma inv_init : Inv init.
Proof.
  constructor; constructor; cbn; try constructor; try tauto; unfold in_range;
    unfold kAclRangeStart, kScoRangeStart, kLeAclRangeStart; lia.
Qed.

Lemma inv_step s o s' r t : Inv s -> step s o = Ok s' r t -> Inv s'.
Proof.
  intros [HA HS HL] E.
  destruct o as [a w|a w c|a st sp lg|h|a|a n tk|]; cbn [step] in E.
  - unfold create_connection in E. destruct (get_unused_handle _ _ _ _) as [[h l]|] eqn:Eg; [|discriminate].
    injection E as <- _ _. constructor; cbn; auto. eapply (tinv_add 0 255); eauto; reflexivity.
  - unfold create_le_connection in E. destruct (get_unused_handle _ _ _ _) as [[h l]|] eqn:Eg; [|discriminate].
    injection E as <- _ _. constructor; cbn; auto. eapply (tinv_add 512 767); eauto; reflexivity.
  - unfold create_sco_connection in E. destruct (get_unused_handle _ _ _ _) as [[h l]|] eqn:Eg; [|discriminate].
    injection E as <- _ _. constructor; cbn; auto. eapply (tinv_add 256 511); eauto; reflexivity.
  - unfold disconnect in E.
    destruct (lookup (scos s) h) as [c|].
    { injection E as <- _ _. constructor; cbn; auto. now apply tinv_erase. }
    destruct (lookup (acls s) h) as [x|].
    { destruct (get_sco_handle s (acl_peer x)); [discriminate|].
      injection E as <- _ _. constructor; cbn; auto. now apply tinv_erase. }
    destruct (has (les s) h); injection E as <- _ _; constructor; cbn; auto. now apply tinv_erase.
  - unfold cancel_pending_sco in E. destruct (get_sco_handle s a) as [h|].
    + destruct (lookup (scos s) h) as [c|].
      * destruct (sco_stream c); [discriminate|]. injection E as <- _ _. constructor; cbn; auto. now apply tinv_erase.
      * injection E as <- _ _. constructor; auto.
    + injection E as <- _ _. constructor; auto.
  - unfold accept_pending_sco in E. destruct (get_sco_handle s a) as [h|].
    + destruct (lookup (scos s) h) as [c|].
      * destruct n; [destruct (sco_stream c); [discriminate|]|];
          injection E as <- _ _; constructor; cbn; auto; now apply tinv_update.
      * injection E as <- _ _. constructor; auto.
    + injection E as <- _ _. constructor; auto.
  - injection E as <- _ _. apply inv_init.
Qed.

Lemma inv_run ops : forall s s', Inv s -> run s ops = Some s' -> Inv s'.
Proof.
  induction ops as [|o ops IH]; intros s s' HI E; cbn in E.
  - now injection E as <-.
  - destruct (step s o) as [s1 r t| |] eqn:Es; [|discriminate..].
    eapply IH; [|exact E]. eapply inv_step; eassumption.
Qed.

Lemma reachable_inv s : reachable s -> Inv s.
Proof. intros [ops E]. eapply inv_run; [apply inv_init|exact E]. Qed.

Lemma nodup_app {A} (a b : list A) : NoDup a -> NoDup b -> (forall x, In x a -> In x b -> False) ->
  NoDup (a ++ b).
Proof.
  induction a as [|x a IH]; intros Ha Hb Hd; cbn; [exact Hb|].
  inversion Ha as [|? ? Hn Ha']; subst. constructor.
  - rewrite in_app_iff. intros [K|K]; [contradiction|]. eapply Hd; [left; reflexivity|exact K].
  - apply IH; auto. intros y Hy. apply Hd. right; exact Hy.
Qed.

Lemma live_unique s : reachable s -> NoDup (live s).
Proof.
  intros R. destruct (reachable_inv s R) as [HA HS HL]. unfold live.
  pose proof (tinv_range _ _ _ _ HA) as RA. pose proof (tinv_range _ _ _ _ HS) as RS.
  pose proof (tinv_range _ _ _ _ HL) as RL. unfold in_range in *.
  apply nodup_app; [exact (tinv_nodup _ _ _ _ HA)|apply nodup_app; [exact (tinv_nodup _ _ _ _ HS)|exact (tinv_nodup _ _ _ _ HL)|]|].
  - intros x H1 H2. apply RS in H1. apply RL in H2. lia.
  - intros x H1 H2. apply RA in H1. apply in_app_iff in H2 as [H2|H2]; [apply RS in H2|apply RL in H2]; lia.
Qed.

Lemma connection_live s h : In h (live s) <-> exists c, connection_of s h = Some c.
Proof.
  unfold live, connection_of. rewrite !in_app_iff. split.
  - intros H. destruct (lookup (acls s) h) as [c|] eqn:E1; [eauto|].
    destruct (lookup (scos s) h) as [c|] eqn:E2; [eauto|].
    destruct (lookup (les s) h) as [c|] eqn:E3; [eauto|].
    apply lookup_none in E1, E2, E3. tauto.
  - intros [c H]. destruct (lookup (acls s) h) as [x|] eqn:E1; [apply lookup_in in E1; tauto|].
    destruct (lookup (scos s) h) as [x|] eqn:E2; [apply lookup_in in E2; tauto|].
    destruct (lookup (les s) h) as [x|] eqn:E3; [apply lookup_in in E3; tauto|discriminate].
Qed.

Lemma connection_range s h c : reachable s -> connection_of s h = Some c -> in_range_of c h.
Proof.
  intros R E. destruct (reachable_inv s R) as [HA HS HL]. unfold connection_of in E.
  destruct (lookup (acls s) h) as [x|] eqn:E1.
  { injection E as <-. apply lookup_in in E1. apply (tinv_range _ _ _ _ HA) in E1. exact E1. }
  destruct (lookup (scos s) h) as [x|] eqn:E2.
  { injection E as <-. apply lookup_in in E2. apply (tinv_range _ _ _ _ HS) in E2. exact E2. }
  destruct (lookup (les s) h) as [x|] eqn:E3; [|discriminate].
  injection E as <-. apply lookup_in in E3. apply (tinv_range _ _ _ _ HL) in E3. exact E3.
Qed.

Lemma lookup_out_of_range {C} s0 e0 (m : table C) last h :
  tinv s0 e0 m last -> ~ (s0 <= h <= e0) -> lookup m h = None.
Proof.
  intros HI Hn. apply lookup_none. intros K. apply (tinv_range _ _ _ _ HI) in K. exact (Hn K).
Qed.

(** A creation returns a fresh handle, installs the new connection under it,
    and touches no other handle. *)
Lemma creation_correct s o s' r t : reachable s -> is_creation o = true -> step s o = Ok s' r t ->
  exists h, r = RHandle h /\ ~ In h (live s) /\ connection_of s' h = created o /\
    (forall h', h' <> h -> connection_of s' h' = connection_of s h') /\ t = [].
Proof.
  intros R Hc E. destruct (reachable_inv s R) as [HA HS HL].
  destruct o as [a w|a w c|a st sp lg|h|a|a n tk|]; try discriminate; cbn [step] in E.
  - unfold create_connection in E. destruct (get_unused_handle _ _ _ _) as [[h l]|] eqn:Eg; [|discriminate].
    injection E as <- <- <-. exists h.
    destruct (alloc_some 0 255 eq_refl _ _ _ _ HA Eg) as (H1 & H2 & _). unfold in_range in H1.
    split; [reflexivity|]. split.
    { unfold live. rewrite !in_app_iff. intros [K|[K|K]]; [contradiction| |].
      - apply (tinv_range _ _ _ _ HS) in K. unfold in_range in K; lia.
      - apply (tinv_range _ _ _ _ HL) in K. unfold in_range in K; lia. }
    split; [unfold connection_of; cbn; now rewrite N.eqb_refl|].
    split; [|reflexivity]. intros h' Hne. unfold connection_of. cbn.
    destruct (N.eqb_spec h h'); [congruence|reflexivity].
  - unfold create_le_connection in E. destruct (get_unused_handle _ _ _ _) as [[h l]|] eqn:Eg; [|discriminate].
    injection E as <- <- <-. exists h.
    destruct (alloc_some 512 767 eq_refl _ _ _ _ HL Eg) as (H1 & H2 & _). unfold in_range in H1.
    assert (N1 := lookup_out_of_range _ _ _ _ h HA ltac:(lia)).
    assert (N2 := lookup_out_of_range _ _ _ _ h HS ltac:(lia)).
    split; [reflexivity|]. split.
    { unfold live. rewrite !in_app_iff. apply lookup_none in N1, N2. tauto. }
    split; [unfold connection_of; cbn; now rewrite N1, N2, N.eqb_refl|].
    split; [|reflexivity]. intros h' Hne. unfold connection_of. cbn.
    destruct (N.eqb_spec h h'); [congruence|reflexivity].
  - unfold create_sco_connection in E. destruct (get_unused_handle _ _ _ _) as [[h l]|] eqn:Eg; [|discriminate].
    injection E as <- <- <-. exists h.
    destruct (alloc_some 256 511 eq_refl _ _ _ _ HS Eg) as (H1 & H2 & _). unfold in_range in H1.
    assert (N1 := lookup_out_of_range _ _ _ _ h HA ltac:(lia)).
    assert (N2 := lookup_out_of_range _ _ _ _ h HL ltac:(lia)).
    split; [reflexivity|]. split.
    { unfold live. rewrite !in_app_iff. apply lookup_none in N1, N2. tauto. }
    split; [unfold connection_of; cbn; now rewrite N1, N.eqb_refl|].
    split; [|reflexivity]. intros h' Hne. unfold connection_of. cbn.
    destruct (N.eqb_spec h h'); [congruence|reflexivity].
Qed.

(** ---- Termination ---- *)

Lemma creation_terminates s o : reachable s -> is_creation o = true ->
  (live_of_type s o < 256)%nat -> exists s' r t, step s o = Ok s' r t.
Proof.
  intros R Hc L. destruct (reachable_inv s R) as [HA HS HL].
  destruct o as [a w|a w c|a st sp lg|h|a|a n tk|]; try discriminate; cbn [step live_of_type] in *.
  - destruct (pigeonhole 0 255 eq_refl (acls s) L) as (h & H1 & H2).
    destruct (search_complete 0 255 eq_refl (acls s) (last_acl s) h (tinv_last _ _ _ _ HA) H1 H2) as [h' E].
    unfold create_connection, get_unused_handle. change kAclRangeStart with 0. change kAclRangeEnd with 255.
    rewrite E. eauto.
  - destruct (pigeonhole 512 767 eq_refl (les s) L) as (h & H1 & H2).
    destruct (search_complete 512 767 eq_refl (les s) (last_le s) h (tinv_last _ _ _ _ HL) H1 H2) as [h' E].
    unfold create_le_connection, get_unused_handle. change kLeAclRangeStart with 512. change kLeAclRangeEnd with 767.
    rewrite E. eauto.
  - destruct (pigeonhole 256 511 eq_refl (scos s) L) as (h & H1 & H2).
    destruct (search_complete 256 511 eq_refl (scos s) (last_sco s) h (tinv_last _ _ _ _ HS) H1 H2) as [h' E].
    unfold create_sco_connection, get_unused_handle. change kScoRangeStart with 256. change kScoRangeEnd with 511.
    rewrite E. eauto.
Qed.

(** [Hang] really means that the search loop exits after no number of turns. *)
Lemma hang_is_forever s addr own : reachable s -> create_connection s addr own = Hang ->
  forall fuel, search (acls s) kAclRangeStart kAclRangeEnd fuel (last_acl s) = None.
Proof.
  intros R E fuel. destruct (reachable_inv s R) as [HA _ _].
  unfold create_connection, get_unused_handle in E.
  destruct (search (acls s) kAclRangeStart kAclRangeEnd 256 (last_acl s)) eqn:Es; [discriminate|].
  apply (full_never_returns 0 255 eq_refl); [|exact (tinv_last _ _ _ _ HA)].
  apply (search_none_full 0 255 eq_refl _ (last_acl s)); [exact (tinv_last _ _ _ _ HA)|exact Es].
Qed.

Definition exhaust : list op := repeat (CreateConnection [1; 2; 3; 4; 5; 6] []) 256.

Lemma exhausted_hangs : exists s, run init exhaust = Some s /\
  (forall fuel, search (acls s) kAclRangeStart kAclRangeEnd fuel (last_acl s) = None).
Proof.
  destruct (run init exhaust) as [s|] eqn:E; [|vm_compute in E; discriminate].
  exists s. split; [reflexivity|].
  apply (hang_is_forever s [] []); [exists exhaust; exact E|].
  assert (K : match run init exhaust with
              | Some s => match create_connection s [] [] with Hang => true | _ => false end
              | None => false end = true) by (vm_compute; reflexivity).
  rewrite E in K. destruct (create_connection s [] []); congruence.
Qed.

(** ---- Disconnection ---- *)

(** The precondition the code documents (acl_connection_handler.cc:111-112):
    no SCO link to the peer of an ACL link being closed. *)
Lemma disconnect_correct s h : reachable s ->
  (forall a, connection_of s h = Some (IsAcl a) ->
     forall h' c, connection_of s h' = Some (IsSco c) -> sco_peer c <> acl_peer a) ->
  exists s' b t, step s (Disconnect h) = Ok s' (RBool b) t /\
    (b = true <-> In h (live s)) /\
    connection_of s' h = None /\
    (forall h', h' <> h -> connection_of s' h' = connection_of s h') /\
    t = match connection_of s h with
        | Some (IsSco c) => match sco_stream c with Some x => [x] | None => [] end
        | _ => []
        end.
Proof.
  intros R Hpre. destruct (reachable_inv s R) as [HA HS HL]. cbn [step]. unfold disconnect.
  destruct (lookup (scos s) h) as [c|] eqn:E2.
  { assert (K := lookup_in _ _ _ E2). assert (K' := tinv_range _ _ _ _ HS _ K). unfold in_range in K'.
    assert (E1 := lookup_out_of_range _ _ _ _ h HA ltac:(lia)).
    assert (E3 := lookup_out_of_range _ _ _ _ h HL ltac:(lia)).
    do 3 eexists. split; [reflexivity|]. split.
    { unfold live; rewrite !in_app_iff. tauto. }
    split; [unfold connection_of; cbn; now rewrite E1, lookup_erase, N.eqb_refl, E3|].
    split; [|unfold connection_of, stop_stream; now rewrite E1, E2].
    intros h' Hne. unfold connection_of. cbn. rewrite lookup_erase.
    apply N.eqb_neq in Hne. now rewrite Hne. }
  destruct (lookup (acls s) h) as [a|] eqn:E1.
  { assert (K := lookup_in _ _ _ E1). assert (K' := tinv_range _ _ _ _ HA _ K). unfold in_range in K'.
    assert (E3 := lookup_out_of_range _ _ _ _ h HL ltac:(lia)).
    assert (C1 : connection_of s h = Some (IsAcl a)) by (unfold connection_of; now rewrite E1).
    destruct (get_sco_handle s (acl_peer a)) as [h'|] eqn:Eg.
    { exfalso. apply find_key_spec in Eg as (c & Hi & Hp). apply list_eqb_eq in Hp.
      assert (Hk : In h' (keys (scos s))) by (apply in_map_iff; exists (h', c); auto).
      assert (Hr := tinv_range _ _ _ _ HS _ Hk). unfold in_range in Hr.
      apply in_lookup_nodup in Hi; [|exact (tinv_nodup _ _ _ _ HS)].
      apply (Hpre a C1 h' c); [|exact Hp]. unfold connection_of.
      now rewrite (lookup_out_of_range _ _ _ _ h' HA ltac:(lia)), Hi. }
    do 3 eexists. split; [reflexivity|]. split.
    { unfold live; rewrite !in_app_iff. tauto. }
    split; [unfold connection_of; cbn; now rewrite lookup_erase, N.eqb_refl, E2, E3|].
    split; [|now rewrite C1].
    intros h' Hne. unfold connection_of. cbn. rewrite lookup_erase.
    apply N.eqb_neq in Hne. now rewrite Hne. }
  destruct (has (les s) h) eqn:E3.
  { apply has_spec in E3. do 3 eexists. split; [reflexivity|]. split.
    { unfold live; rewrite !in_app_iff. tauto. }
    split; [unfold connection_of; cbn; now rewrite E1, E2, lookup_erase, N.eqb_refl|].
    split.
    - intros h' Hne. unfold connection_of. cbn. rewrite lookup_erase.
      apply N.eqb_neq in Hne. now rewrite Hne.
    - unfold connection_of. rewrite E1, E2. destruct (lookup (les s) h); reflexivity. }
  apply has_false in E3. assert (E3' := proj2 (lookup_none _ _) E3).
  exists s, false, []. split; [reflexivity|]. split.
  { unfold live; rewrite !in_app_iff. apply lookup_none in E1, E2. split; [discriminate|tauto]. }
  split; [unfold connection_of; now rewrite E1, E2, E3'|]. split; [reflexivity|].
  unfold connection_of. now rewrite E1, E2, E3'.
Qed.

(** Only that precondition can make a disconnection fail. *)
Lemma disconnect_abort_only s h : reachable s ->
  (step s (Disconnect h) = Abort <->
   exists a h' c, connection_of s h = Some (IsAcl a) /\ connection_of s h' = Some (IsSco c) /\
     sco_peer c = acl_peer a).
Proof.
  intros R. destruct (reachable_inv s R) as [HA HS HL]. split.
  - cbn [step]. unfold disconnect. destruct (lookup (scos s) h) as [c|]; [discriminate|].
    destruct (lookup (acls s) h) as [a|] eqn:E1; [|destruct (has (les s) h); discriminate].
    destruct (get_sco_handle s (acl_peer a)) as [h'|] eqn:Eg; [|discriminate]. intros _.
    apply find_key_spec in Eg as (c & Hi & Hp). apply list_eqb_eq in Hp.
    assert (Hk : In h' (keys (scos s))) by (apply in_map_iff; exists (h', c); auto).
    assert (Hr := tinv_range _ _ _ _ HS _ Hk). unfold in_range in Hr.
    apply in_lookup_nodup in Hi; [|exact (tinv_nodup _ _ _ _ HS)].
    exists a, h', c. unfold connection_of at 1. rewrite E1. split; [reflexivity|]. split; [|exact Hp].
    unfold connection_of. now rewrite (lookup_out_of_range _ _ _ _ h' HA ltac:(lia)), Hi.
  - intros (a & h' & c & C1 & C2 & Ep). cbn [step]. unfold disconnect.
    assert (Ea : lookup (acls s) h = Some a).
    { unfold connection_of in C1. destruct (lookup (acls s) h) as [x|]; [congruence|].
      destruct (lookup (scos s) h); [discriminate|]. destruct (lookup (les s) h); discriminate. }
    assert (K' := tinv_range _ _ _ _ HA _ (lookup_in _ _ _ Ea)). unfold in_range in K'.
    rewrite (lookup_out_of_range _ _ _ _ h HS ltac:(lia)), Ea.
    destruct (get_sco_handle s (acl_peer a)) eqn:Eg; [reflexivity|].
    exfalso. assert (Ec : lookup (scos s) h' = Some c).
    { unfold connection_of in C2. destruct (lookup (acls s) h'); [discriminate|].
      destruct (lookup (scos s) h') as [x|]; [congruence|]. destruct (lookup (les s) h'); discriminate. }
    apply lookup_in_pair in Ec.
    assert (Hf := find_key_none _ _ Eg _ _ Ec). cbn in Hf. rewrite Ep, list_eqb_refl in Hf. discriminate.
Qed.

(** ---- Address lookups ---- *)

Lemma lookups_sound s : reachable s ->
  (forall a h, get_acl_handle s a = Some h ->
     exists c, connection_of s h = Some (IsAcl c) /\ acl_peer c = a) /\
  (forall a, get_acl_handle s a = None ->
     forall h c, connection_of s h = Some (IsAcl c) -> acl_peer c <> a) /\
  (forall l r h, get_le_handle s l r = Some h ->
     exists c, connection_of s h = Some (IsLe c) /\ le_peer c = r /\ le_own c = l) /\
  (forall l r, get_le_handle s l r = None ->
     forall h c, connection_of s h = Some (IsLe c) -> ~ (le_peer c = r /\ le_own c = l)).
Proof.
  intros R. destruct (reachable_inv s R) as [HA HS HL].
  split; [|split; [|split]].
  - intros a h E. apply find_key_spec in E as (c & Hi & Hp). apply list_eqb_eq in Hp.
    apply in_lookup_nodup in Hi; [|exact (tinv_nodup _ _ _ _ HA)]. exists c. unfold connection_of. now rewrite Hi.
  - intros a E h c Ec Hp. unfold connection_of in Ec.
    destruct (lookup (acls s) h) as [x|] eqn:El.
    + injection Ec as ->. apply lookup_in_pair in El.
      assert (Hf := find_key_none _ _ E _ _ El). cbn in Hf. rewrite Hp, list_eqb_refl in Hf. discriminate.
    + destruct (lookup (scos s) h); [discriminate|]. destruct (lookup (les s) h); discriminate.
  - intros l r h E. apply find_key_spec in E as (c & Hi & Hp). apply andb_true_iff in Hp as [P1 P2].
    apply list_eqb_eq in P1, P2.
    assert (Hk : In h (keys (les s))) by (apply in_map_iff; exists (h, c); auto).
    assert (Hr := tinv_range _ _ _ _ HL _ Hk). unfold in_range in Hr.
    apply in_lookup_nodup in Hi; [|exact (tinv_nodup _ _ _ _ HL)]. exists c. unfold connection_of.
    now rewrite (lookup_out_of_range _ _ _ _ h HA ltac:(lia)), (lookup_out_of_range _ _ _ _ h HS ltac:(lia)), Hi.
  - intros l r E h c Ec [Hp1 Hp2]. unfold connection_of in Ec.
    destruct (lookup (acls s) h); [discriminate|]. destruct (lookup (scos s) h); [discriminate|].
    destruct (lookup (les s) h) as [x|] eqn:El; [|discriminate].
    injection Ec as ->. apply lookup_in_pair in El.
    assert (Hf := find_key_none _ _ E _ _ El). cbn in Hf.
    rewrite Hp1, Hp2, !list_eqb_refl in Hf. discriminate.
Qed.

(** ---- No leaked stream ---- *)

(** Running streams = live SCO connections with a stream. *)
Definition streams (s : handler) : list N := flat_map (fun e => stop_stream (snd e)) (scos s).

Lemma reset_correct s : exists s' t, step s Reset = Ok s' RUnit t /\ live s' = [] /\ t = streams s /\ s' = init.
Proof. eexists _, _. split; [reflexivity|]. repeat split. Qed.

Lemma sco_exhausted_witness : exists s, reachable s /\ step s (CancelPendingSco [1]) = Abort.
Proof.
  destruct (run init [CreateScoConnection [1] PENDING true false; AcceptPendingSco [1] true 7]) as [s|] eqn:E;
    [|discriminate].
  exists s. split; [eexists; exact E|]. injection E as <-. reflexivity.
Qed.
