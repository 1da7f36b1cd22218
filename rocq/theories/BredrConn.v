(** The links of the BR/EDR controller: one per peer, known to the link manager, and never
    with the device being paged. *)
From Coq Require Import Permutation.
From Verif Require Import Prelude Table Sco Bredr BredrBase BredrInv.
From Verif Require Handles HandlesProofs.
Import Handles(get_unused_handle, kAclRangeStart, kAclRangeEnd, kScoRangeStart, kScoRangeEnd).
Open Scope N_scope.

Definition named (a : addr) : bool := negb (list_eqb a empty_address).

Record conn (s : bredr) : Prop := Conn {
  conn_nodup : NoDup (peers s);
  conn_page : forall p, page s = Some p -> ~ In (page_peer p) (peers s);
  conn_links : Permutation (links s) (filter named (peers s));
  conn_few : lenN (links s) <= 7 }.

Lemma conn_new : forall a, conn (new_bredr a).
Proof. intros a. constructor; cbn; [constructor|discriminate|constructor|discriminate]. Qed.

(** The peers, the links and the page are the same *)
Definition alike (s s' : bredr) : Prop := peers s' = peers s /\ links s' = links s /\ page s' = page s.
Lemma alike_refl : forall s, alike s s.
Proof. now intros s. Qed.
Lemma alike_trans : forall a b c, alike a b -> alike b c -> alike a c.
Proof. unfold alike. intuition congruence. Qed.
Lemma conn_alike : forall s s', alike s s' -> conn s -> conn s'.
Proof. intros s s' (E1 & E2 & E3) [A B C D]. constructor; rewrite ?E1, ?E2, ?E3; auto. Qed.

Lemma alike_schedule : forall t j s s', alike s s' -> alike s (schedule t j s').
Proof. intros. eapply alike_trans; [eassumption|]. now repeat split. Qed.
Lemma alike_cancel : forall i s s', alike s s' -> alike s (cancel i s').
Proof. intros. eapply alike_trans; [eassumption|]. now repeat split. Qed.
Lemma alike_scos : forall t s s', alike s s' -> alike s (with_scos t s').
Proof. intros. eapply alike_trans; [eassumption|]. now repeat split. Qed.
Lemma alike_last_sco : forall t s s', alike s s' -> alike s (with_last_sco t s').
Proof. intros. eapply alike_trans; [eassumption|]. now repeat split. Qed.
Lemma alike_queue : forall t s s', alike s s' -> alike s (with_queue t s').
Proof. intros. eapply alike_trans; [eassumption|]. now repeat split. Qed.
Lemma alike_page_scan : forall t s s', alike s s' -> alike s (with_page_scan t s').
Proof. intros. eapply alike_trans; [eassumption|]. now repeat split. Qed.
Lemma alike_inquiry : forall t s s', alike s s' -> alike s (with_inquiry t s').
Proof. intros. eapply alike_trans; [eassumption|]. now repeat split. Qed.
Lemma alike_tell_disconnection : forall now h r s s', alike s s' -> alike s (tell_disconnection now h r s').
Proof. intros. unfold tell_disconnection. destruct (unmasked s' 5); auto; now apply alike_schedule. Qed.
Lemma alike_stop_stream : forall c s s', alike s s' -> alike s (stop_stream c s').
Proof. intros. unfold stop_stream. destruct (sco_stream c); auto; now apply alike_cancel. Qed.
Lemma alike_close_sco : forall h s s', alike s s' -> alike s (close_sco h s').
Proof. intros. unfold close_sco. destruct (lookup (scos s') h); auto; now apply alike_scos, alike_stop_stream. Qed.
Lemma alike_cancel_sco : forall order a s s', alike s s' -> alike s (cancel_sco order a s').
Proof. intros. unfold cancel_sco. destruct (sco_of order a s') as [[h c]|]; auto; now apply alike_scos. Qed.

Lemma peers_put : forall s h c c', lookup (acls s) h = Some c -> acl_peer c' = acl_peer c ->
  peers (with_acls (put (acls s) h c') s) = peers s.
Proof.
  intros s h c c'. unfold peers. fields. generalize (acls s) as t. intros t L E.
  induction t as [|[k d] t IH]; cbn [lookup] in L; [discriminate|].
  unfold put; fold (put (C:=acl_link)). rewrite N.eqb_sym in L. rewrite (N.eqb_sym h k) in L.
  destruct (k =? h); cbn [map snd]; [injection L as ->; now rewrite E|]. f_equal. now apply IH.
Qed.
Lemma alike_put : forall s s0 h c c', alike s s0 -> lookup (acls s0) h = Some c -> acl_peer c' = acl_peer c ->
  alike s (with_acls (put (acls s0) h c') s0).
Proof.
  intros s s0 h c c' A L E. eapply alike_trans; [exact A|]. split; [|split]; fields; auto. now apply (peers_put s0 h c).
Qed.

Ltac alike_tac :=
  cbn [fst snd]; repeat first
  [ apply alike_refl | apply alike_schedule | apply alike_cancel | apply alike_scos | apply alike_last_sco | apply alike_queue
  | apply alike_page_scan | apply alike_inquiry
  | apply alike_tell_disconnection | apply alike_close_sco | apply alike_cancel_sco | apply alike_stop_stream
  | match goal with |- alike _ (if ?b then _ else _) => destruct b end
  | match goal with |- alike _ (fst (if ?b then _ else _)) => destruct b end
  | match goal with |- alike _ (snd (if ?b then _ else _)) => destruct b end
  | assumption ].

(** * A new link *)

Lemma whole_half : whole_ms (kTimeout / 2) = 1500000.
Proof. reflexivity. Qed.

Lemma check_new : forall order now h s c, lookup (acls s) h = Some c -> last_heard c = now ->
  check_link order now h s = Ok (schedule (now + 1500000) (CheckLink h) s).
Proof.
  intros order now h s c L E. unfold check_link. rewrite L, E.
  assert (E1 : (now + kTimeout <? now) = false) by (apply N.ltb_ge; lia). rewrite E1.
  assert (E2 : (now + kTimeout / 2 <? now) = false) by (apply N.ltb_ge; lia). rewrite E2.
  replace (now + kTimeout / 2 - now) with (kTimeout / 2) by lia. now rewrite whole_half.
Qed.

Lemma create_effect : forall now a r p s h s', core s -> create_acl now a r p s = Ok (h, s') ->
  ~ In h (keys (acls s)) /\ h <= 255 /\
  exists l, s' = with_last_acl l (with_acls (acls s ++ [(h, AclLink a r p now)]) s).
Proof.
  intros now a r p s h s' C. unfold create_acl. destruct (get_unused_handle _ _ _ _) as [[h' l]|] eqn:E; [|discriminate].
  intros [= <- <-]. destruct (tinv_alloc _ 0 255 _ _ _ _ (AclLink a r p now) eq_refl (core_acl s C) E) as (_ & N & _ & H).
  split; [exact N|]. split; [exact H|]. exists l. now rewrite put_absent.
Qed.
Lemma lookup_last : forall (C : Type) (t : table C) h c, ~ In h (keys t) -> lookup (t ++ [(h, c)]) h = Some c.
Proof. intros C t h c N. rewrite <- put_absent by exact N. rewrite lookup_put, N.eqb_refl. reflexivity. Qed.

(** Creating a link and scheduling its first check *)
Lemma open_effect : forall order now a r p s h s1 s2, core s -> create_acl now a r p s = Ok (h, s1) -> check_link order now h s1 = Ok s2 ->
  ~ In h (keys (acls s)) /\ h <= 255 /\
  exists l, s2 = schedule (now + 1500000) (CheckLink h) (with_last_acl l (with_acls (acls s ++ [(h, AclLink a r p now)]) s)).
Proof.
  intros order now a r p s h s1 s2 C E1 E2. destruct (create_effect _ _ _ _ _ _ _ C E1) as (N & R & l & ->).
  split; [exact N|]. split; [exact R|]. exists l.
  rewrite (check_new order now h _ (AclLink a r p now)) in E2; [now injection E2 as <-| |reflexivity].
  fields. now apply lookup_last.
Qed.

Lemma add_link_effect : forall a s s', add_link a s = Ok s' ->
  lenN (links s) < 7 /\ s' = with_links (links s ++ filter named [a]) s.
Proof.
  intros a s s'. unfold add_link, MAX_PEER_NUMBER, named. cbn [filter]. destruct (7 <=? lenN (links s)) eqn:E; [discriminate|].
  apply N.leb_gt in E. destruct (list_eqb a empty_address); cbn [negb]; intros [= <-]; split; auto.
  rewrite app_nil_r. now destruct s.
Qed.

Lemma filter_last : forall (l : list addr) a, filter named (l ++ [a]) = filter named l ++ filter named [a].
Proof. intros. now rewrite filter_app. Qed.

Lemma peers_app : forall s t l, peers (with_last_acl l (with_acls (acls s ++ t) s)) = peers s ++ map (fun e => acl_peer (snd e)) t.
Proof. intros. unfold peers. fields. now rewrite map_app. Qed.

Lemma conn_grown : forall s s' a, conn s -> ~ In a (peers s) -> lenN (links s) < 7 ->
  peers s' = peers s ++ [a] -> links s' = links s ++ filter named [a] ->
  (page s' = None \/ (page s' = page s /\ paging a s = false)) -> conn s'.
Proof.
  intros s s' a [A B C F] N S P L G. constructor.
  - rewrite P. rewrite <- (rev_involutive (peers s ++ [a])). apply NoDup_rev. rewrite rev_app_distr. cbn.
    constructor; [now rewrite <- in_rev|now apply NoDup_rev].
  - intros p E. rewrite P. intros I. destruct G as [G|(G & F0)]; [congruence|]. rewrite G in E.
    apply in_app_iff in I. destruct I as [I|[I|[]]]; [eapply B; eauto|].
    unfold paging in F0. rewrite E, <- I, list_eqb_refl in F0. discriminate.
  - rewrite P, L, filter_last. now apply Permutation_app_tail.
  - rewrite L. unfold lenN in *. rewrite app_length. cbn [filter]. destruct (named a); cbn [List.length]; lia.
Qed.

(** * The end of a link *)

Lemma peers_erase : forall s h, peers (with_acls (erase (acls s) h) s) = map (fun e => acl_peer (snd e)) (erase (acls s) h).
Proof. reflexivity. Qed.

Lemma erase_split : forall (C : Type) (t : table C) h c, NoDup (keys t) -> lookup t h = Some c ->
  exists t1 t2, t = t1 ++ (h, c) :: t2 /\ erase t h = t1 ++ t2.
Proof.
  intros C t h c. induction t as [|[k d] t IH]; intros ND L; cbn [lookup] in L; [discriminate|].
  destruct (N.eqb_spec k h) as [->|D].
  - injection L as ->. exists [], t. split; auto. cbn [app]. inversion ND; subst.
    cbn [erase]. unfold erase. cbn [filter fst]. rewrite N.eqb_refl. cbn [negb]. now apply erase_absent.
  - inversion ND; subst. destruct (IH H2 L) as (t1 & t2 & -> & E). exists ((k, d) :: t1), t2. split; auto.
    unfold erase in *. cbn [filter fst app]. rewrite (proj2 (N.eqb_neq _ _) D). cbn [negb]. now rewrite E.
Qed.

Lemma remove_first_split : forall a l1 l2, ~ In a l1 -> remove_first a (l1 ++ a :: l2) = l1 ++ l2.
Proof.
  intros a l1 l2. induction l1 as [|b l IH]; cbn [app remove_first]; intros N; [now rewrite list_eqb_refl|].
  destruct (list_eqb b a) eqn:E; [apply list_eqb_eq in E; subst; exfalso; apply N; now left|].
  f_equal. apply IH. intros I. apply N. now right.
Qed.
Lemma remove_first_perm : forall a l, In a l -> Permutation l (a :: remove_first a l).
Proof.
  intros a l. induction l as [|b l IH]; intros I; [destruct I|]. cbn [remove_first].
  destruct (list_eqb b a) eqn:E; [apply list_eqb_eq in E; now subst|].
  destruct I as [->|I]; [rewrite list_eqb_refl in E; discriminate|]. rewrite perm_swap. constructor. now apply IH.
Qed.

Lemma remove_first_shorter : forall a l, (List.length (remove_first a l) <= List.length l)%nat.
Proof. intros a l. induction l as [|b l IH]; cbn [remove_first]; auto. destruct (list_eqb b a); cbn [List.length]; lia. Qed.

Definition without (a : addr) (l : list addr) : list addr := if named a then remove_first a l else l.

Lemma remove_link_effect : forall a s s', remove_link a s = Ok s' ->
  (named a = true -> In a (links s)) /\ s' = with_links (without a (links s)) s.
Proof.
  intros a s s'. unfold remove_link, without, named. destruct (list_eqb a empty_address); cbn [negb].
  - destruct (_ <=? _); [discriminate|]. intros [= <-]. split; [discriminate|now destruct s].
  - destruct (existsb (list_eqb a) (links s)) eqn:E; [|discriminate]. intros [= <-]. split; auto.
    intros _. apply existsb_exists in E. destruct E as (b & I & E). apply list_eqb_eq in E. now subst.
Qed.

Lemma conn_shrunk : forall s s' h c, core s -> conn s -> lookup (acls s) h = Some c ->
  acls s' = erase (acls s) h -> links s' = without (acl_peer c) (links s) -> page s' = page s -> conn s'.
Proof.
  intros s s' h c K [A B C W] L E1 E2 E3.
  destruct (erase_split _ (acls s) h c (HandlesProofs.tinv_nodup _ _ _ _ (core_acl s K)) L) as (t1 & t2 & T & E).
  assert (P : Permutation (peers s) (acl_peer c :: peers s')).
  { unfold peers. rewrite E1, E, T, !map_app. cbn [map snd]. symmetry. apply Permutation_middle. }
  constructor.
  - rewrite P in A. now inversion A.
  - intros p G I. rewrite E3 in G. apply (B p G). rewrite P. now right.
  - rewrite E2. unfold without. rewrite P in A. inversion A; subst.
    assert (P' : Permutation (filter named (peers s)) (filter named (acl_peer c :: peers s'))).
    { clear - P. induction P; cbn [filter]; auto.
      - destruct (named x); auto.
      - destruct (named x), (named y); auto. apply perm_swap.
      - now transitivity (filter named l'). }
    rewrite P' in C. cbn [filter] in C. destruct (named (acl_peer c)); auto.
    assert (I : In (acl_peer c) (links s)) by (rewrite C; now left).
    pose proof (remove_first_perm _ _ I) as R. eapply Permutation_cons_inv. transitivity (links s); [symmetry; exact R|exact C].
  - rewrite E2. unfold without. pose proof (remove_first_shorter (acl_peer c) (links s)). destruct (named (acl_peer c)); auto. unfold lenN in *. lia.
Qed.

Lemma with_links_page : forall s, with_page (page s) s = s.
Proof. now intros []. Qed.

Section WithOrder.
Variable order : table sco_link -> table sco_link.
Variable cfg : config.
Hypothesis any_order : forall t, Permutation (order t) t.

(** What closing a link does to the tables *)
Lemma close_effect : forall h s s' c, lookup (acls s) h = Some c -> close_acl order h s = Ok s' ->
  sco_of order (acl_peer c) s = None /\ s' = with_acls (erase (acls s) h) s.
Proof.
  intros h s s' c L. unfold close_acl. rewrite L. destruct (sco_of order (acl_peer c) s); [discriminate|].
  now intros [= <-].
Qed.

Definition same_tables (s s' : bredr) : Prop := acls s' = acls s /\ links s' = links s /\ page s' = page s /\ page_scan s' = page_scan s.
Lemma close_sco_tables : forall h s, same_tables s (close_sco h s).
Proof.
  intros h s. unfold close_sco. destruct (lookup (scos s) h) as [c|]; [|now repeat split].
  unfold stop_stream. destruct (sco_stream c); now repeat split.
Qed.
Lemma tell_disconnection_tables : forall now h r s, same_tables s (tell_disconnection now h r s).
Proof. intros. unfold tell_disconnection. destruct (unmasked s 5); now repeat split. Qed.
Lemma same_tables_trans : forall a b c, same_tables a b -> same_tables b c -> same_tables a c.
Proof. unfold same_tables. intuition congruence. Qed.
Lemma same_tables_schedule : forall t j s, same_tables s (schedule t j s).
Proof. now repeat split. Qed.

(** Disconnect: the synchronous connection, or the link and its synchronous connection *)
Lemma disconnect_effect : forall now h r r' s st s', core s -> disconnect order now h r r' s = Ok (st, s') ->
  (st = UNKNOWN_CONNECTION /\ s' = s /\ lookup (acls s) h = None /\ lookup (scos s) h = None) \/
  (st = SUCCESS /\ lookup (scos s) h <> None /\ same_tables s s') \/
  (st = SUCCESS /\ lookup (scos s) h = None /\ exists c, lookup (acls s) h = Some c /\ acls s' = erase (acls s) h /\
     links s' = without (acl_peer c) (links s) /\ page s' = page s /\ page_scan s' = page_scan s).
Proof.
  intros now h r r' s st s' C. unfold disconnect. destruct (lookup (scos s) h) as [c|] eqn:L.
  - intros [= <- <-]. right. left. split; auto. split; [discriminate|].
    eapply same_tables_trans; [|apply tell_disconnection_tables]. eapply same_tables_trans; [|apply close_sco_tables].
    apply same_tables_schedule.
  - destruct (lookup (acls s) h) as [c|] eqn:L'.
    + intros H. right. right.
      set (s1 := match sco_of order (acl_peer c) s with Some _ => _ | None => _ end) in H.
      assert (T : same_tables s s1).
      { unfold s1. destruct (sco_of order (acl_peer c) s) as [[sh sc]|]; [|now repeat split].
        eapply same_tables_trans; [|apply tell_disconnection_tables]. eapply same_tables_trans; [|apply close_sco_tables].
        apply same_tables_schedule. }
      clearbody s1. cbv zeta in H. unbind H. injection H as <- <-. destruct T as (T1 & T2 & T3 & T4).
      apply (close_effect h _ _ c) in E; [|fields; now rewrite T1]. destruct E as (_ & ->).
      apply remove_link_effect in E0. destruct E0 as (_ & ->).
      destruct (tell_disconnection_tables now h r' (with_acls (erase (acls (transmit now (to_peer s1 (acl_peer c) (Bye r)) s1)) h) (transmit now (to_peer s1 (acl_peer c) (Bye r)) s1))) as (U1 & U2 & U3 & U4).
      split; auto. split; auto. exists c. split; auto. fields. rewrite U1, U2, U3, U4. fields. rewrite T1, T2, T3, T4. auto.
    + intros [= <- <-]. left. auto.
Qed.

Lemma conn_disconnect : forall now h r r' s st s', core s -> conn s -> disconnect order now h r r' s = Ok (st, s') -> conn s'.
Proof.
  intros now h r r' s st s' C K H. apply disconnect_effect in H; auto.
  destruct H as [(_ & -> & _)|[(_ & _ & T)|(_ & _ & c & L & E1 & E2 & E3 & _)]]; auto.
  - apply (conn_alike s); auto. destruct T as (T1 & T2 & T3 & _). unfold alike, peers. now rewrite T1.
  - now apply (conn_shrunk s s' h c).
Qed.
Lemma conn_check_link : forall now h s s', core s -> conn s -> check_link order now h s = Ok s' -> conn s'.
Proof.
  intros now h s s' C K. unfold check_link. destruct (lookup (acls s) h) as [c|]; [|now intros [= <-]].
  destruct (_ <? _); [|destruct (_ <? _)].
  - intros H. unbind H. injection H as <-. eapply conn_disconnect; eassumption.
  - intros [= <-]. apply (conn_alike s); auto. alike_tac.
  - intros [= <-]. apply (conn_alike s); auto. alike_tac.
Qed.

Lemma open_stream_alike : forall now h s s', open_stream order now h s = Ok s' -> alike s s'.
Proof.
  intros now h s s'. unfold open_stream. destruct (lookup (scos s) h) as [c|]; [|intros [= <-]; alike_tac].
  destruct (sco_stream c); [discriminate|]. destruct (sco_spoofed c); [|intros [= <-]; alike_tac].
  destruct (sco_of order (sco_peer c) s) as [[h' c']|]; [|discriminate]. unfold start_stream. intros [= <-]. alike_tac.
Qed.
Lemma accept_negotiated_alike : forall now h c p s l s', accept_negotiated order now h c p s = Ok (l, s') -> alike s s'.
Proof.
  intros now h c p s l s'. unfold accept_negotiated. destruct (negotiate _ _ _) as [k|]; [|intros [= <- <-]; alike_tac].
  intros H. unbind H. injection H as <- <-. apply open_stream_alike in E. eapply alike_trans; [|exact E]. alike_tac.
Qed.

(** Accepting an incoming connection, when there was none: a new link *)
Definition accepted_role (s : bredr) (try : bool) : role :=
  if try && negb (match page_scan s with Some p => scan_allow p | None => 0 end =? 0) then CENTRAL else PERIPHERAL.

Lemma accept_effect : forall now a try s st s', core s -> accept_connection order now a try s = Ok (st, s') ->
  alike s s' \/
  (paged_by a s = true /\ st = SUCCESS /\ ~ In a (peers s) /\ lenN (links s) < 7 /\
   exists h, ~ In h (keys (acls s)) /\ h <= 255 /\ acls s' = acls s ++ [(h, AclLink a (accepted_role s try) (default_policy s) now)] /\
     links s' = links s ++ filter named [a] /\ page s' = (if paging a s then None else page s) /\ page_scan s' = None).
Proof.
  intros now a try s st s' C. unfold accept_connection. fold (accepted_role s try). destruct (paged_by a s) eqn:PB.
  - destruct (has_acl_with a s) eqn:HA; [intros [= <- <-]; left; alike_tac|]. apply has_acl_with_spec in HA.
    generalize (accepted_role s try) as r. intros r H. unbind H. injection H as <- <-. right.
    destruct (open_effect order _ _ _ _ _ _ _ _ C E E0) as (N & R & l & ->).
    apply add_link_effect in E1. destruct E1 as (L & ->). split; auto. split; auto. split; auto.
    match type of L with lenN (links (if ?b then _ else _)) < 7 => destruct b end; fields; (split; [exact L|]);
      exists n; (split; [exact N|]); (split; [exact R|]); cbv zeta;
      match goal with |- context [if unmasked ?s 3 then _ else _] => destruct (unmasked s 3) end;
      change (paging a (transmit now ?p ?x)) with (paging a s); destruct (paging a s); fields; auto.
  - destruct (sco_of order a s) as [[h c]|]; [|intros [= <- <-]; left; alike_tac].
    destruct (is_pending c); [|intros [= <- <-]; left; alike_tac].
    intros H. unbind H. injection H as <- <-. left. apply accept_negotiated_alike in E.
    destruct o; alike_tac.
Qed.
Lemma setup_sync_alike : forall now h p sp leg s st s', setup_sync order now h p sp leg s = Ok (st, s') -> alike s s'.
Proof.
  intros now h p sp leg s st s'. unfold setup_sync. destruct (lookup (acls s) h) as [c|]; [|intros [= <- <-]; alike_tac].
  destruct (has_pending_sco order (acl_peer c) s); [intros [= <- <-]; alike_tac|]. intros H. unbind H. injection H as <- <-.
  unfold create_sco in E. destruct (get_unused_handle _ _ _ _) as [[h' l]|]; [|discriminate]. injection E as <- <-. alike_tac.
Qed.
Lemma accept_sync_alike : forall now a p s st s', accept_sync order now a p s = Ok (st, s') -> alike s s'.
Proof.
  intros now a p s st s'. unfold accept_sync. destruct (sco_of order a s) as [[h c]|]; [|intros [= <- <-]; alike_tac].
  destruct (is_pending c); [|intros [= <- <-]; alike_tac]. intros H. unbind H. injection H as <- <-.
  apply accept_negotiated_alike in E. destruct o; alike_tac.
Qed.

(** The peer answered a page *)
Definition paging_role (s : bredr) (try : bool) : role :=
  if negb (match page s with Some p => page_allow p | None => 0 end =? 0) && try then PERIPHERAL else CENTRAL.

Lemma response_effect : forall now a try s s' out, core s -> receive_page_response order now a try s = Ok (s', out) ->
  (paging a s = false /\ s' = s /\ out = []) \/
  (paging a s = true /\ lenN (links s) < 7 /\
   exists h, ~ In h (keys (acls s)) /\ h <= 255 /\ acls s' = acls s ++ [(h, AclLink a (paging_role s try) (default_policy s) now)] /\
     links s' = links s ++ filter named [a] /\ page s' = None /\ page_scan s' = page_scan s /\
     queue s' = insert (Task (now + 1500000) (next_id s) (CheckLink h)) (queue s) /\ mask s' = mask s /\ scos s' = scos s /\
     out = (if role_eqb (paging_role s try) PERIPHERAL then said s 0x12 (RoleChange SUCCESS a (paging_role s try)) else []) ++
           said s 0x03 (ConnectionComplete SUCCESS h a LINK_ACL)).
Proof.
  intros now a try s s' out C. unfold receive_page_response. fold (paging_role s try). destruct (paging a s).
  - generalize (paging_role s try) as r. intros r H. right. unbind H. injection H as <- <-.
    destruct (open_effect order _ _ _ _ _ _ _ _ C E E0) as (N & R & l & ->).
    apply add_link_effect in E1. destruct E1 as (L & ->). split; auto. split; [exact L|].
    exists n. split; [exact N|]. split; [exact R|]. fields. repeat split; auto.
  - intros [= <- <-]. left. auto.
Qed.

(** The peer disconnected *)
Lemma bye_effect : forall now a reason s s', core s -> receive_bye order now a reason s = Ok s' ->
  (acl_of a s = None /\ s' = s) \/
  (exists h c, acl_of a s = Some (h, c) /\ lookup (acls s) h = Some c /\ acl_peer c = a /\ sco_of order a s = None /\
     s' = tell_disconnection now h reason (with_links (without a (links s)) (with_acls (erase (acls s) h) s))).
Proof.
  intros now a reason s s' C. unfold receive_bye. destruct (acl_of a s) as [[h c]|] eqn:F; [|intros [= <-]; left; auto].
  intros H. right. exists h, c. destruct (acl_lookup a s h c C F) as (L & E'). unbind H. injection H as <-.
  apply (close_effect h s x c) in E; auto. destruct E as (N & ->). rewrite E' in N.
  apply remove_link_effect in E0. destruct E0 as (_ & ->). auto.
Qed.

Lemma conn_reset : forall now s, conn (reset order now s).
Proof. intros now s. unfold reset. constructor; cbn; [constructor|discriminate|constructor|discriminate]. Qed.

Lemma conn_command : forall now s c st s' out, core s -> conn s -> run_command order cfg now s c = Ok (st, s', out) -> conn s'.
Proof.
  intros now s c st s' out C K H. destruct c; cbn [run_command] in H; unfold quiet in H;
    try (injection H as <- <- <-; cbn [fst snd]);
    try (unbind H; injection H as <- <- <-; cbn [fst snd]);
    try (apply (conn_alike s); [now repeat split|assumption]).
  - unfold start_inquiry. destruct (_ || _); auto. destruct (inquiry s); auto. apply (conn_alike s); auto. alike_tac.
  - unfold cancel_inquiry. destruct (inquiry s); auto. apply (conn_alike s); auto. alike_tac.
  - unfold create_connection. destruct (page s); auto. destruct (has_acl_with a s) eqn:HA; auto. destruct (paged_by a s); auto.
    apply has_acl_with_spec in HA. destruct K as [A B D W]. cbn [snd]. constructor; auto.
    intros p E. fields. injection E as <-. exact HA.
  - unfold cancel_connection. destruct (paging a s); auto. destruct K as [A B D W]. cbn [snd].
    destruct (unmasked s 3); constructor; auto; fields; discriminate.
  - eapply conn_disconnect; eassumption.
  - apply accept_effect in E; auto. destruct E as [E|(_ & _ & N & F7 & h & _ & _ & E1 & E2 & E3 & _)]; [now apply (conn_alike s)|].
    apply (conn_grown s b a); auto.
    + unfold peers. rewrite E1. now rewrite map_app.
    + rewrite E3. destruct (paging a s); auto.
  - unfold reject_connection. destruct (paged_by a s); auto. apply (conn_alike s); auto. alike_tac.
  - unfold change_packet_type. destruct (has (acls s) h); auto. apply (conn_alike s); auto. alike_tac.
  - unfold ask_peer. destruct (lookup (acls s) h); auto. apply (conn_alike s); auto. alike_tac.
  - unfold ask_peer. destruct (lookup (acls s) h); auto. apply (conn_alike s); auto. alike_tac.
  - unfold ask_peer. destruct (lookup (acls s) h); auto. apply (conn_alike s); auto. alike_tac.
  - unfold ask_peer. destruct (lookup (acls s) h); auto. apply (conn_alike s); auto. alike_tac.
  - apply setup_sync_alike in E. now apply (conn_alike s).
  - apply setup_sync_alike in E. now apply (conn_alike s).
  - apply accept_sync_alike in E. now apply (conn_alike s).
  - unfold reject_sync. destruct (has_pending_sco order a s); auto. apply (conn_alike s); auto. alike_tac.
  - destruct (enhanced_ok p e); [|now injection H as <- <- <-]. unbind H. injection H as <- <- <-.
    apply setup_sync_alike in E. now apply (conn_alike s).
  - destruct (enhanced_ok p e); [|now injection H as <- <- <-]. unbind H. injection H as <- <- <-.
    apply accept_sync_alike in E. now apply (conn_alike s).
  - unfold qos_setup. destruct (negb _); auto. destruct (2 <? service); auto. apply (conn_alike s); auto. alike_tac.
  - destruct (lookup (acls s) h); now injection H as <- <- <-.
  - unfold switch_role. destruct (acl_of a s) as [[h c]|]; auto. destruct (sco_of order a s); auto.
    apply (conn_alike s); auto. alike_tac.
  - unfold write_link_policy. destruct (lookup (acls s) h) as [c|] eqn:L; auto. destruct (7 <? n); auto.
    apply (conn_alike s); auto. cbn [snd]. eapply alike_put; [apply alike_refl|exact L|reflexivity].
  - destruct (7 <? n); injection H as <- <- <-; auto. apply (conn_alike s); auto. now repeat split.
  - apply conn_reset.
Qed.

Lemma heard_alike : forall now a s, core s -> alike s (heard_from now a s).
Proof.
  intros now a s C. unfold heard_from. destruct (acl_of a s) as [[h c]|] eqn:F; [|alike_tac].
  destruct (acl_lookup a s h c C F) as (L & _). eapply alike_put; [alike_tac|exact L|reflexivity].
Qed.

Lemma conn_dispatch : forall now rssi p s s' out, core s -> conn s -> dispatch order cfg now rssi p s = Ok (s', out) -> conn s'.
Proof.
  intros now rssi p s s' out C K. unfold dispatch. destruct (content p); unfold silent, answering; intros H;
    try (injection H as <- <-);
    try (apply (conn_alike s); [now repeat split|assumption]).
  - unbind H. injection H as <- <-. apply bye_effect in E; auto. destruct E as [(_ & ->)|(h & c & _ & L & E1 & _ & ->)]; auto.
    apply (conn_alike (with_links (without (source p) (links s)) (with_acls (erase (acls s) h) s))); [alike_tac|].
    apply (conn_shrunk s _ h c); auto. now rewrite E1.
  - apply (conn_alike s); auto. unfold receive_inquiry. alike_tac.
  - injection H as H. apply (conn_alike s); auto. unfold receive_page in H.
    destruct (negb (page_scan_enable s)); [injection H as <- <-; alike_tac|]. destruct (negb _); [injection H as <- <-; alike_tac|].
    destruct (has_acl_with _ s); [injection H as <- <-; alike_tac|]. destruct (page_scan s); injection H as <- <-; alike_tac.
  - apply response_effect in H; auto. destruct H as [(_ & -> & _)|(P & F7 & h & N & _ & E1 & E2 & E3 & _)]; auto.
    apply (conn_grown s s' (source p)); auto.
    + unfold paging in P. destruct (page s) as [pg|] eqn:G; [|discriminate]. apply list_eqb_eq in P. rewrite <- P. now apply (conn_page s K).
    + unfold peers. rewrite E1. now rewrite map_app.
  - injection H as H. unfold receive_page_reject in H. destruct (paging (source p) s); injection H as <- <-; auto.
    destruct K as [A B D W]. constructor; auto. fields. discriminate.
  - unbind H. injection H as <- <-. unfold receive_extended_request in E. destruct (get_features cfg s page); [|discriminate].
    injection E as <-. apply (conn_alike s); auto. alike_tac.
  - apply (conn_alike s); auto. unfold receive_sco_request in H. destruct (has_pending_sco order (source p) s); [injection H as <- <-; alike_tac|].
    unbind H. injection H as <- <-. unfold create_sco in E. destruct (get_unused_handle _ _ _ _) as [[h' l]|]; [|discriminate].
    injection E as <- <-. alike_tac.
  - apply (conn_alike s); auto. unfold receive_sco_response in H. destruct (sco_of order (source p) s) as [[h c]|]; [|injection H as <- <-; alike_tac].
    destruct (st =? SUCCESS).
    + unbind H. injection H as <- <-. unfold accept_given in E. apply open_stream_alike in E. eapply alike_trans; [|exact E]. alike_tac.
    + no_stream H. injection H as <- <-. alike_tac.
  - apply (conn_alike s); auto. unfold receive_sco_bye. destruct (sco_of order (source p) s) as [[h c]|]; alike_tac.
  - apply (conn_alike s); auto. unfold receive_switch_request. destruct (acl_of (source p) s) as [[h c]|] eqn:F; [|alike_tac].
    destruct (acl_lookup _ _ _ _ C F) as (L & _). destruct (N.testbit _ 0); [|alike_tac].
    set (t := transmit _ _ _).
    assert (A : alike s (with_acls (put (acls t) h (with_acl_role (other (acl_role c)) c)) t)) by (eapply alike_put; [alike_tac|exact L|reflexivity]).
    alike_tac.
  - apply (conn_alike s); auto. unfold receive_switch_response. destruct (acl_of (source p) s) as [[h c]|] eqn:F; [|alike_tac].
    destruct (acl_lookup _ _ _ _ C F) as (L & _). cbv zeta.
    assert (A : alike s (with_acls (put (acls s) h (with_acl_role (if st =? SUCCESS then other (acl_role c) else acl_role c) c)) s))
      by (eapply alike_put; [alike_tac|exact L|reflexivity]).
    match goal with |- alike _ (if ?b then _ else _) => destruct b end; auto; now apply alike_schedule.
Qed.
Lemma conn_receive : forall now rssi p s s' out, core s -> conn s -> receive order cfg now rssi p s = Ok (s', out) -> conn s'.
Proof.
  intros now rssi p s s' out C K. unfold receive. destruct (for_me p s); [|now intros [= <- <-]].
  apply conn_dispatch; [now apply core_heard|]. eapply conn_alike; [now apply heard_alike|exact K].
Qed.

Lemma conn_run_job : forall now t q s s' out, core s -> conn s -> queue s = t :: q ->
  run_job order now t (with_queue q s) = Ok (s', out) -> conn s'.
Proof.
  intros now t q s s' out C0 K0 EQ. pose proof (core_pop t q s C0 EQ) as C.
  assert (K : conn (with_queue q s)) by (apply (conn_alike s); auto; alike_tac).
  unfold run_job. destruct (what_to_do t) eqn:W; intros H; try (injection H as <- <-; auto).
  - apply (conn_alike s); auto. alike_tac.
  - unfold answering in H. unbind H. injection H as <- <-. eapply conn_check_link; eassumption.
  - apply (conn_alike s); auto. unfold send_sco. fields. destruct (lookup (scos s) h); now repeat split.
Qed.
Lemma conn_run_tasks : forall now limit fuel s s' out, core s -> conn s -> run_tasks order now limit fuel s = Ok (s', out) -> conn s'.
Proof.
  intros now limit. induction fuel as [|fuel IH]; cbn [run_tasks]; intros s s' out C K H; [now injection H as <- <-|].
  destruct (queue s) as [|t q] eqn:EQ; [now injection H as <- <-|].
  destruct ((due t <=? now) && (ident t <? limit)); [|now injection H as <- <-]. unbind H. injection H as <- <-.
  eapply IH; [| |eassumption].
  - eapply core_run_job; eassumption.
  - eapply conn_run_job; eassumption.
Qed.
Lemma conn_do_paging : forall now s, conn s -> conn (fst (do_paging now s)).
Proof.
  intros now s [A B C W]. unfold do_paging. destruct (page s) as [p|] eqn:G; [|cbn [fst]; constructor; auto; rewrite G; discriminate].
  destruct (_ <=? _); [constructor; auto; fields; discriminate|].
  destruct (_ && _); cbn [fst]; [|constructor; auto; rewrite G; exact B].
  constructor; auto. fields. intros p' [= <-]. cbn. now apply B.
Qed.
Lemma conn_do_inquiry : forall now s, conn s -> conn (fst (do_inquiry now s)).
Proof.
  intros now s C. apply (conn_alike s); auto. unfold do_inquiry. destruct (inquiry s); [|alike_tac].
  destruct (_ <=? _); [alike_tac|]. destruct (_ <=? _); alike_tac.
Qed.
Lemma conn_tick : forall now s s' out, core s -> conn s -> tick order now s = Ok (s', out) -> conn s'.
Proof.
  intros now s s' out C K H. unfold tick in H. unbind H. apply conn_run_tasks in E; auto.
  injection H as <- <-. apply (conn_do_paging now) in E. rewrite E0 in E. cbn [fst] in E.
  apply (conn_do_inquiry now) in E. now rewrite E1 in E.
Qed.

Theorem conn_step : forall now s o s' st out, core s -> conn s -> step order cfg now s o = Ok (s', st, out) -> conn s'.
Proof.
  intros now s o s' st out C K H. destruct o; cbn [step] in H; unbind H.
  - injection H as <- <- <-. eapply conn_command; eassumption.
  - injection H as <- <- <-. unfold handle_acl in E. destruct (negb _); [discriminate|]. injection E as <-.
    apply (conn_alike s); auto. destruct (lookup (acls s) h); alike_tac.
  - injection H as <- <- <-. apply (conn_alike s); auto. unfold send_sco. destruct (lookup (scos s) h); alike_tac.
  - injection H as <- <- <-. eapply conn_receive; eassumption.
  - injection H as <- <- <-. eapply conn_tick; eassumption.
Qed.
Theorem conn_history : forall h s, history order cfg h s -> conn s.
Proof.
  intros h s H. induction H; [apply conn_new|]. eapply conn_step; [eapply core_history| |]; eassumption.
Qed.
End WithOrder.
