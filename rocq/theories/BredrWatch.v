(** The BR/EDR controller: link supervision. *)
From Coq Require Import Permutation.
From Verif Require Import Prelude Table Sco Bredr BredrBase BredrInv BredrConn BredrSpec BredrRefine BredrTime.
Open Scope N_scope.

Section WithOrder.
Variable order : table sco_link -> table sco_link.
Variable cfg : config.
Hypothesis any_order : forall t, Permutation (order t) t.

(** A tick only removes links that have expired *)
Definition only_expired (now : N) (s s' : bredr) : Prop := address s' = address s /\
  forall k, lookup (acls s') k = lookup (acls s) k \/
    (lookup (acls s') k = None /\ exists c, lookup (acls s) k = Some c /\ last_heard c + kTimeout < now).
Lemma only_expired_trans : forall now a b c, only_expired now a b -> only_expired now b c -> only_expired now a c.
Proof.
  intros now a b c (A0 & A) (B0 & B). split; [congruence|]. intros k. destruct (B k) as [E|(E & d & F & X)].
  - rewrite E. apply A.
  - right. split; auto. exists d. split; auto. destruct (A k) as [<-|(G & _)]; congruence.
Qed.
Lemma only_expired_same : forall now s s', address s' = address s -> acls s' = acls s -> only_expired now s s'.
Proof. intros now s s' E1 E2. split; auto. intros k. left. now rewrite E2. Qed.

Lemma check_link_expired : forall now h s s', core s -> check_link order now h s = Ok s' -> only_expired now s s'.
Proof.
  intros now h s s' C H.
  pose proof (ext_address _ _ _ _ _ (ext_check_link (fun _ => True) true order now h s s' C H)) as AD. unfold check_link in H.
  destruct (lookup (acls s) h) as [c|] eqn:L; [|injection H as <-; now apply only_expired_same].
  destruct (last_heard c + kTimeout <? now) eqn:X.
  - unbind H. injection H as <-. apply N.ltb_lt in X. split; auto. intros k.
    destruct (disconnect_effect order _ _ _ _ _ _ _ C E) as [(_ & -> & _)|[(_ & _ & (ST & _))|(_ & _ & c' & L' & EA & _)]]; auto.
    + left. now rewrite ST.
    + rewrite EA, lookup_erase. destruct (N.eqb_spec k h) as [->|D]; auto. right. split; auto. exists c. auto.
  - destruct (last_heard c + kTimeout / 2 <? now); injection H as <-; now apply only_expired_same.
Qed.
Lemma run_tasks_expired : forall now limit fuel s s' out, core s -> run_tasks order now limit fuel s = Ok (s', out) -> only_expired now s s'.
Proof.
  intros now limit. induction fuel as [|fuel IH]; cbn [run_tasks]; intros s s' out C H; [injection H as <- <-; now apply only_expired_same|].
  destruct (queue s) as [|t q] eqn:EQ; [injection H as <- <-; now apply only_expired_same|].
  destruct (_ && _); [|injection H as <- <-; now apply only_expired_same]. unbind H. injection H as <- <-.
  eapply only_expired_trans; [|eapply IH; [eapply core_run_job; eassumption|eassumption]].
  eapply only_expired_trans; [apply (only_expired_same now s (with_queue q s)); reflexivity|].
  unfold run_job in E. destruct (what_to_do t); try (injection E as <- <-; now apply only_expired_same).
  - unfold answering in E. unbind E. injection E as <- <-. eapply check_link_expired; [eapply core_pop; eassumption|eassumption].
  - unfold silent in E. injection E as <- <-. unfold send_sco. destruct (lookup (scos _) h); now apply only_expired_same.
Qed.
Lemma tick_expired : forall now s s' out, core s -> tick order now s = Ok (s', out) -> only_expired now s s'.
Proof.
  intros now s s' out C H. unfold tick in H. unbind H. injection H as <- <-.
  eapply only_expired_trans; [eapply run_tasks_expired; eassumption|]. eapply only_expired_trans.
  - unfold do_paging in E0. destruct (page b); [|injection E0 as <- <-; now apply only_expired_same].
    destruct (_ <=? _); [injection E0 as <- <-; now apply only_expired_same|]. destruct (_ && _); injection E0 as <- <-; now apply only_expired_same.
  - unfold do_inquiry in E1. destruct (inquiry b0); [|injection E1 as <- <-; now apply only_expired_same].
    destruct (_ <=? _); [injection E1 as <- <-; now apply only_expired_same|]. destruct (_ <=? _); injection E1 as <- <-; now apply only_expired_same.
Qed.

Lemma nodup_map_eq : forall (T U : Type) (f : T -> U) l x y, NoDup (map f l) -> In x l -> In y l -> f x = f y -> x = y.
Proof.
  intros T U f. induction l as [|z l IH]; intros x y D I J E; [destruct I|]. inversion D as [|? ? N D']; subst.
  destruct I as [->|I], J as [->|J]; auto; exfalso; apply N.
  - rewrite E. now apply in_map.
  - rewrite <- E. now apply in_map.
Qed.
Lemma heard_now : forall now a s k c, core s -> conn s -> lookup (acls (heard_from now a s)) k = Some c -> acl_peer c = a -> last_heard c = now.
Proof.
  intros now a s k c C K L P. unfold heard_from in L. destruct (acl_of a s) as [[h d]|] eqn:F.
  - destruct (acl_lookup a s h d C F) as (LD & PD). cbn [acls with_acls] in L. rewrite lookup_put in L.
    destruct (N.eqb_spec k h) as [->|D]; [injection L as <-; reflexivity|]. exfalso. apply D.
    apply lookup_pair in L. apply lookup_pair in LD. pose proof (conn_nodup s K) as ND. unfold peers in ND.
    assert (E : (k, c) = (h, d)) by (eapply nodup_map_eq; [exact ND| | |]; auto; cbn; congruence). congruence.
  - apply acl_of_peers in F. exfalso. apply F. apply lookup_pair in L. rewrite <- P. unfold peers. apply in_map_iff. exists (k, c). auto.
Qed.

(** When the peer of a link was last heard *)
Theorem last_contact : forall h s, history order cfg h s -> timely h -> forall k c, lookup (acls s) k = Some c ->
  (exists e, In e h /\ contact (address s) (acl_peer c) e /\ at_time e = last_heard c) /\
  (forall e, In e h -> received_from (address s) (acl_peer c) e -> at_time e <= last_heard c).
Proof.
  intros h s H. induction H as [a|h s now o s' st out H IH E]; intros T k c' L'; [discriminate|].
  destruct T as (T1 & T2). specialize (IH T2). pose proof (core_history order cfg any_order _ _ H) as C. pose proof (conn_history order cfg any_order _ _ H) as K.
  assert (TK : o = Tick \/ o <> Tick) by (destruct o; auto; right; discriminate). destruct TK as [->|NT].
  - cbn [step] in E. unbind E. injection E as <- <- <-. destruct (tick_expired _ _ _ _ C E0) as (AD & X). rewrite AD.
    destruct (X k) as [X'|(X' & _)]; [|congruence]. rewrite X' in L'. destruct (IH k c' L') as ((e & I & CO & AT) & ALL). split.
    + exists e. split; [now right|]. auto.
    + intros e' [<-|I']; [intros []|]. now apply ALL.
  - set (ho := fun a => contact (address s) a (Entry now o st out)).
    assert (HA : forall a try, o = Command (AcceptConnection a try) -> ho a) by (intros a try ->; right; exists try; reflexivity).
    assert (HR : forall rssi p, o = Receive rssi p -> for_me p s = true -> ho (source p)).
    { intros rssi p -> FM. left. cbn. split; auto. unfold for_me in FM. apply Bool.orb_true_iff in FM. destruct FM as [FM|FM]; apply list_eqb_eq in FM; auto. }
    pose proof (ext_step ho true order cfg _ _ _ _ _ _ C NT (fun _ _ _ _ _ => eq_refl) HA HR E) as A. rewrite (ext_address _ _ _ _ _ A).
    assert (NEW : forall e, received_from (address s) (acl_peer c') (Entry now o st out) -> e = Entry now o st out -> last_heard c' = now).
    { intros e R _. destruct o as [| | |rssi p|]; try destruct R. cbn [step] in E. unbind E. injection E as <- <- <-.
      assert (FM : for_me p s = true). { unfold for_me. destruct H1 as [->| ->]; rewrite list_eqb_refl; auto. apply Bool.orb_true_r. }
      unfold receive in E0. rewrite FM in E0.
      pose proof (ext_dispatch (fun _ => True) true order cfg _ _ _ _ _ _ (core_heard _ _ _ C) Logic.I E0) as B.
      destruct (ext_links _ _ _ _ _ B k c' L') as [(c1 & L1 & P1 & [Q|(Q & _)])|(Q & _)]; auto. rewrite Q.
      eapply (heard_now now (source p) s k); eauto. congruence. }
    assert (OLD : forall e, In e h -> at_time e <= now) by (intros e I; apply (T1 e I)).
    destruct (ext_links _ _ _ _ _ A k c' L') as [(c & L & P & Q)|(Q & HO & _)].
    + destruct (IH k c L) as ((e & I & CO & AT) & ALL). rewrite P. destruct Q as [Q|(Q & HO)]; rewrite Q.
      * split; [exists e; split; [now right|auto]|]. intros e' [<-|I'] R; [|now apply ALL]. cbn [at_time]. rewrite <- Q. rewrite <- P in R.
        rewrite (NEW _ R eq_refl). lia.
      * split; [exists (Entry now o st out); split; [now left|]; split; auto; rewrite <- P; exact HO|].
        intros e' [<-|I'] R; [cbn; lia|]. now apply OLD.
    + rewrite Q. split; [exists (Entry now o st out); split; [now left|auto]|]. intros e' [<-|I'] R; [cbn; lia|]. now apply OLD.
Qed.

(** After a tick, the peer of every link was heard during the supervision timeout *)
Theorem supervised : forall h s now st out, history order cfg (Entry now Tick st out :: h) s -> timely (Entry now Tick st out :: h) ->
  forall k c, lookup (acls s) k = Some c -> exists e, In e h /\ contact (address s) (acl_peer c) e /\ now <= at_time e + 3000000.
Proof.
  intros h s now st out H T k c L. destruct (tick_leaves order cfg any_order _ _ _ _ _ H T) as (_ & X). specialize (X k c L).
  destruct (last_contact _ _ H T k c L) as ((e & [<-|I] & CO & AT) & _).
  - destruct CO as [[]|(try & CO)]. discriminate CO.
  - exists e. split; auto. split; auto. rewrite AT. exact X.
Qed.
(** A tick removes a link only if its peer was not heard for that long *)
Theorem not_early : forall h s now s' st out, history order cfg h s -> timely h -> step order cfg now s Tick = Ok (s', st, out) ->
  forall k c, lookup (acls s) k = Some c -> lookup (acls s') k = None ->
  forall e, In e h -> received_from (address s) (acl_peer c) e -> at_time e + 3000000 < now.
Proof.
  intros h s now s' st out H T E k c L L' e I R. destruct (last_contact _ _ H T k c L) as (_ & ALL). specialize (ALL e I R).
  cbn [step] in E. unbind E. injection E as <- <- <-. destruct (tick_expired _ _ _ _ (core_history order cfg any_order _ _ H) E0) as (_ & X).
  destruct (X k) as [X'|(_ & d & LD & X')]; [congruence|]. assert (d = c) by congruence. subst d. unfold kTimeout in X'. lia.
Qed.
End WithOrder.
