(** When the BR/EDR controller fails: the exact conditions. *)
From Coq Require Import Permutation.
From Verif Require Import Prelude Table Sco Bredr BredrBase BredrInv BredrConn BredrSpec BredrRefine BredrTime BredrPairSpec BredrSyncSpec BredrSync BredrFailSpec.
From Verif Require Handles HandlesProofs.
Import Handles(get_unused_handle, kAclRangeStart, kAclRangeEnd, kScoRangeStart, kScoRangeEnd).
Open Scope N_scope.

Definition two (x : addr) (s : bredr) : bool := (2 <=? List.length (calls x s))%nat.
Definition abort_if (b : bool) : option failure := if b then Some Aborts else None.

Lemma failure_bind : forall (A B : Type) (r : result A) (k : A -> result B),
  failure_of (bind r k) = match failure_of r with Some f => Some f | None => match r with Ok a => failure_of (k a) | _ => None end end.
Proof. now intros A B []. Qed.

(** * The handles *)

Lemma table_small : forall (C : Type) lo (t : table C) l, HandlesProofs.tinv lo (lo + 255) t l -> (List.length t <= 256)%nat.
Proof.
  intros C lo t l [ND RG _]. assert (I : incl (keys t) (map (fun n => lo + N.of_nat n) (seq 0 256))).
  { intros h Hh. specialize (RG h Hh). unfold HandlesProofs.in_range in RG. apply in_map_iff. exists (N.to_nat (h - lo)). split; [lia|]. apply in_seq. lia. }
  apply NoDup_incl_length in I; [|exact ND]. rewrite map_length, seq_length in I. unfold keys in I. now rewrite map_length in I.
Qed.
Lemma unused_none : forall (C : Type) lo (t : table C) l, HandlesProofs.tinv lo (lo + 255) t l ->
  (get_unused_handle t lo (lo + 255) l = None <-> List.length t = 256%nat).
Proof.
  intros C lo t l T. split; intros H.
  - pose proof (table_small _ _ _ _ T). destruct (Nat.eq_dec (List.length t) 256) as [E|E]; [exact E|]. exfalso.
    destruct (HandlesProofs.pigeonhole lo (lo + 255) eq_refl t ltac:(lia)) as (h & H1 & H2).
    destruct (HandlesProofs.search_complete lo (lo + 255) eq_refl t l h (HandlesProofs.tinv_last _ _ _ _ T) H1 H2) as (h' & E').
    unfold get_unused_handle in H. rewrite E' in H. discriminate.
  - destruct (get_unused_handle t lo (lo + 255) l) as [[h l']|] eqn:E; auto. exfalso.
    destruct t as [|[k c] t]; [discriminate|].
    destruct (tinv_alloc C lo (lo + 255) _ l h l' c eq_refl T E) as (T' & N & _).
    apply table_small in T'. rewrite put_absent in T' by exact N. rewrite app_length in T'. cbn [List.length] in *. lia.
Qed.

Section WithOrder.
Variable order : table sco_link -> table sco_link.
Variable cfg : config.
Hypothesis any_order : forall t, Permutation (order t) t.

Lemma create_sco_fails : forall a p st sp leg s, core s ->
  failure_of (create_sco a p st sp leg s) = if (List.length (scos s) =? 256)%nat then Some NeverReturns else None.
Proof.
  intros a p st sp leg s C. unfold create_sco. pose proof (unused_none _ 256 _ _ (core_sco s C)) as U.
  change (get_unused_handle (scos s) kScoRangeStart kScoRangeEnd (last_sco s) = None <-> List.length (scos s) = 256%nat) in U.
  destruct (get_unused_handle (scos s) kScoRangeStart kScoRangeEnd (last_sco s)) as [[h l]|].
  - destruct (Nat.eqb_spec (List.length (scos s)) 256) as [E|E]; auto. apply U in E. discriminate.
  - assert (E : List.length (scos s) = 256%nat) by now apply U. rewrite E. reflexivity.
Qed.

(** * The links *)

Lemma named_all : forall l, ~ In empty_address l -> filter named l = l.
Proof.
  induction l as [|x l IH]; intros N; auto. cbn [filter]. assert (E : named x = true).
  { unfold named. destruct (list_eqb x empty_address) eqn:E; auto. apply list_eqb_eq in E. subst. exfalso. apply N. now left. }
  rewrite E, IH; auto. intros I. apply N. now right.
Qed.
Lemma crowded_links : forall s, conn s -> (crowded s <-> 7 <= lenN (links s)).
Proof.
  intros s K. pose proof (Permutation_length (conn_links s K)) as P. change (crowded s) with (7 <= List.length (filter named (peers s)))%nat. rewrite <- P. unfold lenN. lia.
Qed.
Lemma few_acls : forall s, conn s -> ~ In empty_address (peers s) -> (List.length (acls s) <= 7)%nat.
Proof.
  intros s K N. pose proof (Permutation_length (conn_links s K)) as P. rewrite named_all in P by exact N.
  pose proof (conn_few s K) as F. unfold lenN in F. unfold peers in P. rewrite map_length in P. lia.
Qed.
Lemma create_acl_ok : forall now a r p s, core s -> conn s -> ~ In empty_address (peers s) -> exists h s', create_acl now a r p s = Ok (h, s').
Proof.
  intros now a r p s C K N. unfold create_acl. pose proof (unused_none _ 0 _ _ (core_acl s C)) as U. pose proof (few_acls s K N) as F.
  change (get_unused_handle (acls s) kAclRangeStart kAclRangeEnd (last_acl s) = None <-> List.length (acls s) = 256%nat) in U.
  destruct (get_unused_handle (acls s) kAclRangeStart kAclRangeEnd (last_acl s)) as [[h l]|]; [eauto|]. assert (List.length (acls s) = 256%nat) by now apply U. lia.
Qed.
Lemma add_link_fails : forall a s, failure_of (add_link a s) = abort_if (7 <=? lenN (links s)).
Proof. intros a s. unfold add_link, MAX_PEER_NUMBER. destruct (7 <=? lenN (links s)); auto. now destruct (list_eqb a empty_address). Qed.
Lemma remove_link_ok : forall a s, named a = true -> In a (links s) -> failure_of (remove_link a s) = None.
Proof.
  intros a s N I. unfold remove_link. unfold named in N. destruct (list_eqb a empty_address); [discriminate|].
  assert (E : existsb (list_eqb a) (links s) = true) by (apply existsb_exists; exists a; split; [exact I|apply list_eqb_refl]). now rewrite E.
Qed.
Lemma peer_linked : forall s h c, conn s -> lookup (acls s) h = Some c -> named (acl_peer c) = true -> In (acl_peer c) (links s).
Proof.
  intros s h c K L N. rewrite (conn_links s K). apply filter_In. split; auto. unfold peers. apply in_map_iff. exists (h, c). split; auto. now apply lookup_pair.
Qed.
Lemma peer_named : forall s h c, ~ In empty_address (peers s) -> lookup (acls s) h = Some c -> named (acl_peer c) = true.
Proof.
  intros s h c N L. unfold named. destruct (list_eqb (acl_peer c) empty_address) eqn:E; auto. apply list_eqb_eq in E. exfalso. apply N.
  unfold peers. apply in_map_iff. exists (h, c). split; auto. now apply lookup_pair.
Qed.
Lemma peers_differ : forall s h c h' c', core s -> conn s -> lookup (acls s) h = Some c -> lookup (acls s) h' = Some c' -> h <> h' -> acl_peer c <> acl_peer c'.
Proof.
  intros s h c h' c' C K L L' D E. destruct (erase_split _ (acls s) h c (HandlesProofs.tinv_nodup _ _ _ _ (core_acl s C)) L) as (t1 & t2 & T & _).
  pose proof (conn_nodup s K) as ND. unfold peers in ND. rewrite T, map_app in ND. cbn [map snd] in ND. apply NoDup_remove_2 in ND. apply ND.
  apply lookup_pair in L'. rewrite T in L'. rewrite <- map_app, E. apply in_map_iff. exists (h', c'). split; auto. apply in_app_iff in L'. apply in_app_iff.
  destruct L' as [I|[I|I]]; auto. congruence.
Qed.
Lemma acl_not_sco : forall s h c, core s -> lookup (acls s) h = Some c -> lookup (scos s) h = None.
Proof.
  intros s h c C L. destruct (lookup (scos s) h) as [z|] eqn:LS; auto. exfalso. apply lookup_pair in LS. apply lookup_pair in L.
  destruct (core_acl s C) as [_ RA _]. destruct (core_sco s C) as [_ RS _].
  apply (in_map fst) in LS. apply (in_map fst) in L. specialize (RA h L). specialize (RS h LS). unfold HandlesProofs.in_range in RA, RS. lia.
Qed.

(** * The synchronous connections *)

Lemma calls_none : forall x s, calls x s = [] -> sco_of order x s = None.
Proof. intros x s E. rewrite (sco_of_calls order any_order) by (rewrite E; cbn; lia). now rewrite E. Qed.
Lemma close_acl_fails : forall h c s, lookup (acls s) h = Some c ->
  failure_of (close_acl order h s) = abort_if (match calls (acl_peer c) s with [] => false | _ => true end).
Proof.
  intros h c s L. unfold close_acl. rewrite L. destruct (sco_of order (acl_peer c) s) as [z|] eqn:F.
  - destruct (calls (acl_peer c) s) eqn:E; auto. rewrite calls_none in F by exact E. discriminate.
  - apply (sco_of_none order any_order) in F. now rewrite F.
Qed.
Lemma calls_close : forall h c s, core s -> lookup (scos s) h = Some c -> List.length (calls (sco_peer c) s) = S (List.length (calls (sco_peer c) (close_sco h s))).
Proof.
  intros h c s C L. unfold close_sco. rewrite L. rewrite !calls_mine. cbn [scos with_scos]. rewrite scos_stop_stream.
  destruct (erase_split _ (scos s) h c (HandlesProofs.tinv_nodup _ _ _ _ (core_sco s C)) L) as (t1 & t2 & -> & ->).
  rewrite !filter_app, !app_length. cbn [filter]. rewrite mine_eq by reflexivity. cbn [List.length]. lia.
Qed.
Lemma calls_close_other : forall x h c s, core s -> lookup (scos s) h = Some c -> sco_peer c <> x -> calls x (close_sco h s) = calls x s.
Proof.
  intros x h c s C L D. unfold close_sco. rewrite L. rewrite !calls_mine. cbn [scos with_scos]. rewrite scos_stop_stream.
  eapply filter_erase_other; [apply (HandlesProofs.tinv_nodup _ _ _ _ (core_sco s C))|exact L|exact D].
Qed.
Lemma scos_tell_disconnection : forall now h r s, scos (tell_disconnection now h r s) = scos s.
Proof. intros. unfold tell_disconnection. now destruct (unmasked s 5). Qed.
Lemma calls_scos : forall x s s', scos s' = scos s -> calls x s' = calls x s.
Proof. intros x s s' E. unfold calls. now rewrite E. Qed.
Lemma links_close_sco : forall h s, links (close_sco h s) = links s /\ acls (close_sco h s) = acls s.
Proof. intros h s. unfold close_sco. destruct (lookup (scos s) h); auto. unfold stop_stream. now destruct (sco_stream s0). Qed.
Lemma links_tell : forall now h r s, links (tell_disconnection now h r s) = links s /\ acls (tell_disconnection now h r s) = acls s.
Proof. intros. unfold tell_disconnection. now destruct (unmasked s 5). Qed.

(** The first synchronous connection is closed before the link *)
Lemma disconnect_fails : forall now h r r' s c, core s -> conn s -> lookup (acls s) h = Some c -> named (acl_peer c) = true ->
  failure_of (disconnect order now h r r' s) = abort_if (two (acl_peer c) s).
Proof.
  intros now h r r' s c C K L N. unfold disconnect. rewrite (acl_not_sco s h c C L), L. cbv zeta.
  set (s1 := match sco_of order (acl_peer c) s with Some _ => _ | None => s end).
  assert (P : acls s1 = acls s /\ links s1 = links s /\ List.length (calls (acl_peer c) s1) = pred (List.length (calls (acl_peer c) s))).
  { unfold s1. destruct (sco_of order (acl_peer c) s) as [[sh sc]|] eqn:F.
    - destruct (sco_lookup order any_order _ _ _ _ C F) as (LS & PE). set (s0 := transmit _ _ s).
      destruct (links_tell now sh r' (close_sco sh s0)) as (-> & ->). destruct (links_close_sco sh s0) as (-> & ->). split; [reflexivity|]. split; [reflexivity|].
      rewrite (calls_scos _ _ _ (scos_tell_disconnection now sh r' (close_sco sh s0))).
      assert (C0 : core s0) by now apply core_schedule. pose proof (calls_close sh sc s0 C0 LS) as Q. rewrite PE in Q.
      change (calls (acl_peer c) s0) with (calls (acl_peer c) s) in Q. rewrite Q. reflexivity.
    - split; [reflexivity|]. split; [reflexivity|]. now rewrite (sco_of_none order any_order _ _ F). }
  destruct P as (PA & PL & PC). set (s2 := transmit now _ s1).
  assert (L2 : lookup (acls s2) h = Some c) by (change (acls s2) with (acls s1); now rewrite PA).
  rewrite failure_bind, (close_acl_fails h c s2 L2). change (calls (acl_peer c) s2) with (calls (acl_peer c) s1).
  unfold two. destruct (close_acl order h s2) as [s3| | |] eqn:E.
  - destruct (close_effect order h s2 s3 c L2 E) as (Q & ->). assert (E0 : calls (acl_peer c) s1 = []) by now apply (sco_of_none order any_order) in Q.
    rewrite E0 in *. cbn [abort_if]. cbn [List.length] in PC.
    assert (W : (2 <=? List.length (calls (acl_peer c) s))%nat = false) by (apply Nat.leb_gt; lia). rewrite W.
    rewrite failure_bind. rewrite remove_link_ok.
    + destruct (remove_link (acl_peer c) _) eqn:RL; auto.
    + exact N.
    + destruct (links_tell now h r' (with_acls (erase (acls s2) h) s2)) as (-> & _). cbn [links with_acls]. change (links s2) with (links s1). rewrite PL. eapply peer_linked; eassumption.
  - pose proof (close_acl_fails h c s2 L2) as Q. rewrite E in Q. change (calls (acl_peer c) s2) with (calls (acl_peer c) s1) in Q.
    destruct (calls (acl_peer c) s1) as [|z l]; [discriminate|]. cbn [List.length] in PC.
    assert (W : (2 <=? List.length (calls (acl_peer c) s))%nat = true) by (apply Nat.leb_le; lia). now rewrite W.
  - unfold close_acl in E. rewrite L2 in E. now destruct (sco_of order (acl_peer c) s2).
  - unfold close_acl in E. rewrite L2 in E. now destruct (sco_of order (acl_peer c) s2).
Qed.
Lemma disconnect_else : forall now h r r' s, lookup (acls s) h = None -> failure_of (disconnect order now h r r' s) = None.
Proof. intros now h r r' s L. unfold disconnect. rewrite L. now destruct (lookup (scos s) h). Qed.

Definition doomed_link (now h : N) (s : bredr) : bool :=
  match lookup (acls s) h with Some c => (last_heard c + kTimeout <? now) && two (acl_peer c) s | None => false end.
Lemma check_link_fails : forall now h s, core s -> conn s -> ~ In empty_address (peers s) -> failure_of (check_link order now h s) = abort_if (doomed_link now h s).
Proof.
  intros now h s C K N. unfold check_link, doomed_link. destruct (lookup (acls s) h) as [c|] eqn:L; auto. destruct (last_heard c + kTimeout <? now); cbn [andb].
  - rewrite failure_bind. rewrite (disconnect_fails now h _ _ s c C K L (peer_named s h c N L)). destruct (two (acl_peer c) s); auto. cbn [abort_if].
    destruct (disconnect order now h CONNECTION_TIMEOUT CONNECTION_TIMEOUT s) as [[st s']| | |]; auto.
  - now destruct (last_heard c + kTimeout / 2 <? now).
Qed.

(** A connection that waits for an answer has no stream: accepting it is safe *)
Lemma open_stream_ok : forall now h c s, core s -> lookup (scos s) h = Some c -> sco_stream c = None -> failure_of (open_stream order now h s) = None.
Proof.
  intros now h c s C L E. unfold open_stream. rewrite L, E. destruct (sco_spoofed c); auto.
  destruct (sco_of order (sco_peer c) s) as [[h' c']|] eqn:F; auto. exfalso. apply (sco_of_none order any_order) in F.
  assert (I : In (h, c) (calls (sco_peer c) s)) by (apply filter_In; split; [now apply lookup_pair|cbn; apply list_eqb_refl]). now rewrite F in I.
Qed.
Lemma pending_silent : forall s h c, core s -> lookup (scos s) h = Some c -> is_pending c = true -> sco_stream c = None.
Proof.
  intros s h c C L P. destruct (sco_stream c) as [i|] eqn:E; auto. exfalso.
  destruct (core_streams s C h c i (lookup_pair _ _ _ L) E) as ((_ & Q) & _). congruence.
Qed.
Lemma accept_negotiated_ok : forall now h c p s, core s -> lookup (scos s) h = Some c -> is_pending c = true -> failure_of (accept_negotiated order now h c p s) = None.
Proof.
  intros now h c p s C L P. unfold accept_negotiated. destruct (negotiate _ _ _) as [l|]; auto. cbv zeta. rewrite failure_bind.
  rewrite (open_stream_ok now h (with_sco_now OPENED (with_sco_negotiated l c))).
  - now destruct (open_stream order now h _).
  - eapply core_put_sco; eauto.
  - cbn [scos with_scos]. now rewrite lookup_put, N.eqb_refl.
  - cbn. eapply pending_silent; eassumption.
Qed.
Lemma accept_given_fails : forall now h c l s, core s -> lookup (scos s) h = Some c ->
  failure_of (accept_given order now h c l s) = abort_if (match sco_stream c with Some _ => true | None => false end).
Proof.
  intros now h c l s C L. unfold accept_given. cbv zeta. destruct (sco_stream c) as [i|] eqn:E.
  - unfold open_stream. cbn [scos with_scos]. rewrite lookup_put, N.eqb_refl. cbn. now rewrite E.
  - rewrite (open_stream_ok now h (with_sco_now OPENED (with_sco_negotiated l c))); auto.
    + eapply core_put_sco; eauto.
    + cbn [scos with_scos]. now rewrite lookup_put, N.eqb_refl.
Qed.

(** * The commands *)

Lemma has_linked : forall a s, has_acl_with a s = true <-> linked a s.
Proof.
  intros a s. unfold linked. pose proof (has_acl_with_spec a s) as X. destruct (has_acl_with a s).
  - split; auto. intros _. destruct (in_dec (list_eq_dec N.eq_dec) a (peers s)) as [I|I]; auto. apply X in I. discriminate.
  - split; [discriminate|]. intros I. now apply X in I.
Qed.
Definition no_room (s : bredr) : bool := (List.length (scos s) =? 256)%nat.
Definition hang_if (b : bool) : option failure := if b then Some NeverReturns else None.
Definition doom_setup (h : N) (s : bredr) : option failure :=
  match lookup (acls s) h with Some c => hang_if (negb (has_pending_sco order (acl_peer c) s) && no_room s) | None => None end.
Lemma setup_sync_fails : forall now h p sp leg s, core s -> failure_of (setup_sync order now h p sp leg s) = doom_setup h s.
Proof.
  intros now h p sp leg s C. unfold setup_sync, doom_setup. destruct (lookup (acls s) h) as [c|]; auto. cbv zeta.
  destruct (has_pending_sco order (acl_peer c) s); auto. cbn [negb andb]. rewrite failure_bind, create_sco_fails by exact C. unfold no_room.
  destruct (List.length (scos s) =? 256)%nat; auto. cbn [hang_if]. destruct (create_sco _ _ _ _ _ s) as [[h' s']| | |]; auto.
Qed.
Lemma accept_sync_ok : forall now a p s, core s -> failure_of (accept_sync order now a p s) = None.
Proof.
  intros now a p s C. unfold accept_sync. destruct (sco_of order a s) as [[h c]|] eqn:F; auto. destruct (is_pending c) eqn:P; auto.
  destruct (sco_lookup order any_order _ _ _ _ C F) as (L & _). rewrite failure_bind, (accept_negotiated_ok now h c p s C L P).
  destruct (accept_negotiated order now h c p s) as [[l s']| | |]; auto.
Qed.
Lemma open_link_ok : forall now a r p s, core s -> conn s -> ~ In empty_address (peers s) ->
  exists h s1 s2, create_acl now a r p s = Ok (h, s1) /\ check_link order now h s1 = Ok s2 /\ links s2 = links s /\ page s2 = page s.
Proof.
  intros now a r p s C K N. destruct (create_acl_ok now a r p s C K N) as (h & s1 & E). destruct (create_effect _ _ _ _ _ _ _ C E) as (F & _ & l & X).
  exists h, s1. eexists. split; [exact E|]. split; [apply (check_new order now h s1 (AclLink a r p now)); [rewrite X; cbn; now apply lookup_last|reflexivity]|].
  now rewrite X.
Qed.
Lemma accept_connection_fails : forall now a try s, core s -> conn s -> ~ In empty_address (peers s) ->
  failure_of (accept_connection order now a try s) = abort_if (paged_by a s && negb (has_acl_with a s) && (7 <=? lenN (links s))).
Proof.
  intros now a try s C K N. unfold accept_connection. destruct (paged_by a s); cbn [andb].
  - destruct (has_acl_with a s); auto. cbn [negb andb]. cbv zeta.
    match goal with |- context[create_acl now a ?r ?d s] => destruct (open_link_ok now a r d s C K N) as (h & s1 & s2 & E1 & E2 & EL & _); generalize dependent r end.
    intros r E1. rewrite E1. cbn [bind]. rewrite E2. cbn [bind]. rewrite failure_bind, add_link_fails.
    assert (L : links (if role_eqb r CENTRAL && unmasked s2 18 then tell now (RoleChange SUCCESS a r) s2 else s2) = links s) by (rewrite <- EL; now destruct (role_eqb r CENTRAL && unmasked s2 18)).
    rewrite L. destruct (7 <=? lenN (links s)); auto. cbn [abort_if]. destruct (add_link a _); auto.
  - destruct (sco_of order a s) as [[h c]|] eqn:F; auto. destruct (is_pending c) eqn:P; auto.
    destruct (sco_lookup order any_order _ _ _ _ C F) as (L & _). rewrite failure_bind, (accept_negotiated_ok now h c _ s C L P).
    destruct (accept_negotiated order now h c (sco_params c) s) as [[l s']| | |]; auto.
Qed.

Definition doom_command (c : command) (s : bredr) : option failure :=
  match c with
  | Disconnect h _ => match lookup (acls s) h with Some c => abort_if (two (acl_peer c) s) | None => None end
  | AcceptConnection a _ => abort_if (paged_by a s && negb (has_acl_with a s) && (7 <=? lenN (links s)))
  | AddSco h _ | SetupSync h _ => doom_setup h s
  | EnhancedSetup h p e => if enhanced_ok p e then doom_setup h s else None
  | _ => None
  end.
Lemma quietly : forall (r : result (status * bredr)), failure_of (bind r quiet) = failure_of r.
Proof. now intros [[st s]| | |]. Qed.
Lemma command_fails : forall now s c, core s -> conn s -> ~ In empty_address (peers s) -> failure_of (run_command order cfg now s c) = doom_command c s.
Proof.
  intros now s c C K N. destruct c; cbn [run_command doom_command]; auto; rewrite ?quietly.
  - destruct (lookup (acls s) h) as [c|] eqn:L; [|now apply disconnect_else]. apply disconnect_fails; auto. eapply peer_named; eassumption.
  - now apply accept_connection_fails.
  - now apply setup_sync_fails.
  - now apply setup_sync_fails.
  - now apply accept_sync_ok.
  - destruct (enhanced_ok p e); auto. rewrite quietly. now apply setup_sync_fails.
  - destruct (enhanced_ok p e); auto. rewrite quietly. now apply accept_sync_ok.
  - now destruct (lookup (acls s) h).
  - now destruct (7 <? n).
Qed.

(** * The packets *)

Definition doom_packet (p : air) (s : bredr) : option failure :=
  match content p with
  | Bye _ => abort_if (has_acl_with (source p) s && match calls (source p) s with [] => false | _ => true end)
  | PageResponse _ => abort_if (paging (source p) s && (7 <=? lenN (links s)))
  | ExtendedFeaturesRequest n => if negb (n =? 1) && (lenN (lmp_features cfg) <=? n) then Some ReadsOutside else None
  | ScoRequest _ _ => hang_if (negb (has_pending_sco order (source p) s) && no_room s)
  | ScoResponse _ _ => match sco_of order (source p) s with
                       | Some (_, c) => abort_if (match sco_stream c with Some _ => true | None => false end)
                       | None => None
                       end
  | _ => None
  end.
Lemma answering_fails : forall r, failure_of (answering r) = failure_of r.
Proof. now intros [s| | |]. Qed.
Lemma dispatch_fails : forall now rssi p s, core s -> conn s -> ~ In empty_address (peers s) -> failure_of (dispatch order cfg now rssi p s) = doom_packet p s.
Proof.
  intros now rssi p s C K N. unfold dispatch, doom_packet. cbv zeta. destruct (content p); unfold silent; auto; rewrite ?answering_fails.
  - unfold receive_bye, has_acl_with. destruct (acl_of (source p) s) as [[h c]|] eqn:F; auto. cbn [andb].
    destruct (acl_lookup _ _ _ _ C F) as (L & P). rewrite failure_bind, (close_acl_fails h c s L). rewrite P.
    destruct (calls (source p) s) as [|z l] eqn:E; auto. cbn [abort_if].
    destruct (close_acl order h s) as [s1| | |] eqn:E1; auto. destruct (close_effect order h s s1 c L E1) as (_ & ->).
    rewrite failure_bind, remove_link_ok.
    + now destruct (remove_link (source p) _).
    + rewrite <- P. eapply peer_named; eassumption.
    + cbn [links with_acls]. rewrite <- P. eapply peer_linked; [exact K|exact L|eapply peer_named; eassumption].
  - unfold receive_page_response. destruct (paging (source p) s); auto. cbn [andb]. cbv zeta.
    match goal with |- context[create_acl now ?a ?r ?d s] => destruct (open_link_ok now a r d s C K N) as (h & s1 & s2 & E1 & E2 & EL & _); generalize dependent r end.
    intros r E1. rewrite E1. cbn [bind]. rewrite E2. cbn [bind]. rewrite failure_bind, add_link_fails. cbn [links with_page]. rewrite EL.
    destruct (7 <=? lenN (links s)); auto. cbn [abort_if]. now destruct (add_link (source p) _).
  - unfold receive_extended_request, get_features. cbv zeta. destruct (N.eqb_spec page 1) as [->|D]; auto. cbn [negb andb].
    destruct (nth_error (lmp_features cfg) (N.to_nat page)) eqn:E.
    + assert (Q : nth_error (lmp_features cfg) (N.to_nat page) <> None) by congruence. apply nth_error_Some in Q. unfold lenN.
      destruct (N.leb_spec (N.of_nat (List.length (lmp_features cfg))) page); auto. lia.
    + apply nth_error_None in E. unfold lenN. destruct (N.leb_spec (N.of_nat (List.length (lmp_features cfg))) page); auto. lia.
  - unfold receive_sco_request. destruct (has_pending_sco order (source p) s); auto. cbn [negb andb]. cbv zeta. rewrite failure_bind, create_sco_fails by exact C. unfold no_room.
    destruct (List.length (scos s) =? 256)%nat; auto. cbn [hang_if]. destruct (create_sco _ _ _ _ _ s) as [[h' s']| | |]; auto.
  - unfold receive_sco_response. destruct (sco_of order (source p) s) as [[h c]|] eqn:F; auto. destruct (sco_lookup order any_order _ _ _ _ C F) as (L & _). cbv zeta.
    destruct (st =? SUCCESS).
    + rewrite failure_bind, (accept_given_fails now h c _ s C L). destruct (sco_stream c); auto. cbn [abort_if]. now destruct (accept_given order now h c _ s).
    + now destruct (sco_stream c).
Qed.
Lemma doom_heard : forall now a p s, core s -> doom_packet p (heard_from now a s) = doom_packet p s.
Proof.
  intros now a p s C. destruct (heard_alike now a s C) as (E1 & E2 & E3).
  assert (E4 : scos (heard_from now a s) = scos s) by (unfold heard_from; destruct (acl_of a s) as [[h c]|]; reflexivity).
  assert (E5 : has_acl_with (source p) (heard_from now a s) = has_acl_with (source p) s).
  { apply eq_true_iff_eq. rewrite !has_linked. unfold linked. now rewrite E1. }
  assert (E6 : sco_of order (source p) (heard_from now a s) = sco_of order (source p) s) by (unfold sco_of; now rewrite E4).
  unfold doom_packet, has_pending_sco, no_room, calls, paging. now rewrite E2, E3, E4, E5, E6.
Qed.

(** * The tick *)

Definition doomed (now : N) (s : bredr) (t : task) : bool := match what_to_do t with CheckLink h => doomed_link now h s | _ => false end.
Lemma run_job_fails : forall now t s, core s -> conn s -> ~ In empty_address (peers s) -> failure_of (run_job order now t s) = abort_if (doomed now s t).
Proof.
  intros now t s C K N. unfold run_job, doomed. destruct (what_to_do t); auto. rewrite answering_fails. now apply check_link_fails.
Qed.

(** The tasks scheduled during the run come last *)
Definition late (now limit : N) (s : bredr) : Prop := (forall t, In t (queue s) -> limit <= ident t -> now <= due t) /\ limit <= next_id s.

(** Running a task that does not fail changes nothing for the others *)
Lemma disconnect_rest : forall now h r r' s c st s', core s -> conn s -> lookup (acls s) h = Some c -> disconnect order now h r r' s = Ok (st, s') ->
  acls s' = erase (acls s) h /\ forall x, x <> acl_peer c -> calls x s' = calls x s.
Proof.
  intros now h r r' s c st s' C K L H. split.
  - destruct (disconnect_effect order _ _ _ _ _ _ _ C H) as [(_ & _ & X & _)|[(_ & X & _)|(_ & _ & c' & L' & EA & _)]]; auto.
    + rewrite L in X. discriminate.
    + pose proof (acl_not_sco s h c C L). congruence.
  - intros x D. unfold disconnect in H. rewrite (acl_not_sco s h c C L), L in H. cbv zeta in H.
    set (s1 := match sco_of order (acl_peer c) s with Some _ => _ | None => s end) in H.
    assert (Q : calls x s1 = calls x s).
    { unfold s1. destruct (sco_of order (acl_peer c) s) as [[sh sc]|] eqn:F; auto. destruct (sco_lookup order any_order _ _ _ _ C F) as (LS & PE).
      rewrite (calls_scos _ _ _ (scos_tell_disconnection now sh r' _)). set (s0 := transmit _ _ s).
      rewrite (calls_close_other x sh sc s0); [reflexivity|now apply core_schedule|exact LS|congruence]. }
    unbind H. injection H as <- <-. rewrite <- Q. unfold close_acl in E. set (s2 := transmit now _ s1) in E.
    assert (L2 : scos x0 = scos s2).
    { destruct (lookup (acls s2) h) as [c2|]; [|now injection E as <-]. destruct (sco_of order (acl_peer c2) s2); [discriminate|]. now injection E as <-. }
    apply remove_link_effect in E0. destruct E0 as (_ & ->). apply calls_scos. cbn [scos with_links]. rewrite scos_tell_disconnection. exact L2.
Qed.
Lemma check_rest : forall now h s s', core s -> conn s -> ~ In empty_address (peers s) -> check_link order now h s = Ok s' ->
  forall k, doomed_link now k s' = doomed_link now k s.
Proof.
  intros now h s s' C K N H k. pose proof (check_link_fails now h s C K N) as F. rewrite H in F. cbn [failure_of] in F.
  assert (DF : doomed_link now h s = false) by (destruct (doomed_link now h s); [discriminate|reflexivity]).
  unfold check_link in H. destruct (lookup (acls s) h) as [c|] eqn:L; [|now injection H as <-].
  destruct (last_heard c + kTimeout <? now).
  - unbind H. injection H as <-. destruct (disconnect_rest _ _ _ _ _ _ _ _ C K L E) as (EA & EC). unfold doomed_link. rewrite EA, lookup_erase.
    destruct (N.eqb_spec k h) as [->|D]; [symmetry; exact DF|]. destruct (lookup (acls s) k) as [d|] eqn:Lk; auto. unfold two. rewrite EC; auto.
    intros X. eapply (peers_differ s k d h c); eauto.
  - destruct (last_heard c + kTimeout / 2 <? now); now injection H as <-.
Qed.
Lemma job_rest : forall now limit t q s s' out, core s -> conn s -> ~ In empty_address (peers s) -> late now limit s -> queue s = t :: q -> eligible now limit t = true ->
  run_job order now t (with_queue q s) = Ok (s', out) ->
  (forall u, doomed now s' u = doomed now s u) /\ late now limit s' /\
  (forall u, In u (queue s') -> eligible now limit u = true -> In u q) /\ (forall u, In u q -> is_stream (what_to_do u) = false -> In u (queue s')) /\
  incl (peers s') (peers s).
Proof.
  intros now limit t q s s' out C K N (LA & LI) EQ EL H. pose proof (core_pop t q s C EQ) as CP. set (p := with_queue q s) in *.
  assert (KP : conn p) by (apply (conn_alike s); [now repeat split|exact K]). assert (NP : ~ In empty_address (peers p)) by exact N.
  apply andb_prop in EL. destruct EL as (E1 & E2). apply N.leb_le in E1. apply N.ltb_lt in E2.
  assert (LQ : forall u, In u q -> limit <= ident u -> now <= due u) by (intros u I; apply LA; rewrite EQ; now right).
  assert (EXT : forall x, ext (fun _ => True) true now p x -> late now limit x /\ (forall u, In u (queue x) -> eligible now limit u = true -> In u q) /\
                (forall u, In u q -> is_stream (what_to_do u) = false -> In u (queue x))).
  { intros x A. split; [split|split].
    - intros u I L. destruct (ext_new _ _ _ _ _ A u I) as [J|(_ & J & _)]; auto.
    - pose proof (ext_id _ _ _ _ _ A). cbn [p next_id with_queue] in *. lia.
    - intros u I EL. destruct (ext_new _ _ _ _ _ A u I) as [J|(J & _)]; auto. apply andb_prop in EL. destruct EL as (_ & EL). apply N.ltb_lt in EL. cbn [p next_id with_queue] in J. lia.
    - intros u I J. now apply (ext_keep _ _ _ _ _ A). }
  unfold run_job in H. destruct (what_to_do t) eqn:W.
  - injection H as <- <-. split; [reflexivity|]. destruct (EXT p (ext_refl _ _ _ _)) as (A1 & A2 & A3). repeat (split; [assumption|]). now intros u.
  - injection H as <- <-. split; [reflexivity|]. destruct (EXT p (ext_refl _ _ _ _)) as (A1 & A2 & A3). repeat (split; [assumption|]). now intros u.
  - injection H as <- <-. split; [reflexivity|]. destruct (EXT p (ext_refl _ _ _ _)) as (A1 & A2 & A3). repeat (split; [assumption|]). now intros u.
  - injection H as <- <-. split; [reflexivity|]. destruct (EXT (transmit now (to_peer p a (PageReject reason)) p)) as (A1 & A2 & A3); [apply ext_schedule; [lia|reflexivity|reflexivity|apply ext_refl]|].
    repeat (split; [assumption|]). now intros u.
  - unfold answering in H. unbind H. injection H as <- <-. split; [intros u; unfold doomed; destruct (what_to_do u); auto; now apply (check_rest now h p x)|].
    destruct (EXT x) as (A1 & A2 & A3); [eapply ext_check_link; eassumption|]. repeat (split; [assumption|]). change (peers s) with (peers p).
    clear - E CP. unfold check_link in E. destruct (lookup (acls p) h) as [c|] eqn:L; [|injection E as <-; now intros u].
    destruct (last_heard c + kTimeout <? now); [|destruct (last_heard c + kTimeout / 2 <? now); injection E as <-; now intros u].
    unbind E. injection E as <-. destruct (disconnect_effect order _ _ _ _ _ _ _ CP E0) as [(_ & -> & _)|[(_ & _ & X)|(_ & _ & c' & L' & EA & _)]].
    + now intros u.
    + destruct X as (X & _). unfold peers. rewrite X. now intros u.
    + unfold peers. rewrite EA. intros u I. apply in_map_iff in I. destruct I as (z & E1 & I). apply in_map_iff. exists z. split; auto. apply in_erase in I. apply I.
  - unfold silent in H. injection H as <- <-. set (y := send_sco now h [0; 0; 0; 0; 0] p).
    assert (EY : acls y = acls p /\ scos y = scos p) by (unfold y, send_sco; now destruct (lookup (scos p) h)). destruct EY as (EY1 & EY2).
    split; [intros u; unfold doomed, doomed_link, two, calls; cbn [acls scos with_queue]; now rewrite EY1, EY2|].
    destruct (EXT y) as ((A1 & A1') & A2 & A3); [unfold y, send_sco; destruct (lookup (scos p) h); [apply ext_schedule; [lia|reflexivity|reflexivity|]|]; apply ext_refl|].
    split; [split; [|exact A1']|split; [|split]]; cbn [queue with_queue].
    + intros u I L. apply in_insert in I. destruct I as [->|I]; [cbn [ident] in L; lia|auto].
    + intros u I EL. apply in_insert in I. destruct I as [->|I]; auto. unfold eligible in EL. cbn [due ident] in EL.
      assert (F : now + 20000 <=? now = false) by (apply N.leb_gt; lia). now rewrite F in EL.
    + intros u I J. apply in_insert. right. auto.
    + unfold peers. cbn [acls with_queue]. rewrite EY1. now intros u.
Qed.

Lemma run_tasks_fails : forall now limit fuel s, core s -> conn s -> ~ In empty_address (peers s) -> late now limit s ->
  (List.length (filter (eligible now limit) (queue s)) <= fuel)%nat ->
  failure_of (run_tasks order now limit fuel s) = abort_if (existsb (fun t => eligible now limit t && doomed now s t) (queue s)).
Proof.
  intros now limit. induction fuel as [|fuel IH]; cbn [run_tasks]; intros s C K N LA F.
  - destruct (existsb _ (queue s)) eqn:X; auto. exfalso. apply existsb_exists in X. destruct X as (t & I & J). apply andb_prop in J. destruct J as (J & _).
    assert (I' : In t (filter (eligible now limit) (queue s))) by (apply filter_In; now split). destruct (filter _ _); [destruct I'|cbn in F; lia].
  - destruct (queue s) as [|t q] eqn:EQ; auto. fold (eligible now limit t). destruct (eligible now limit t) eqn:EL.
    + pose proof (core_pop t q s C EQ) as CP. assert (KP : conn (with_queue q s)) by (apply (conn_alike s); [now repeat split|exact K]).
      cbn [existsb]. rewrite EL. cbn [andb]. rewrite failure_bind. pose proof (run_job_fails now t (with_queue q s) CP KP N) as RF. rewrite RF.
      change (doomed now (with_queue q s) t) with (doomed now s t) in *. destruct (doomed now s t); auto. cbn [abort_if orb] in *.
      destruct (run_job order now t (with_queue q s)) as [[s' out]| | |] eqn:E.
      * destruct (job_rest _ _ _ _ _ _ _ C K N LA EQ EL E) as (DO & LA' & Q1 & Q2 & PE).
        pose proof (core_run_job order _ _ _ _ _ _ C EQ E) as C'. pose proof (conn_run_job order _ _ _ _ _ _ C K EQ E) as K'.
        assert (X : existsb (fun u => eligible now limit u && doomed now s u) q = existsb (fun u => eligible now limit u && doomed now s' u) (queue s')).
        { apply eq_true_iff_eq. rewrite !existsb_exists. split; intros (u & I & J).
          - exists u. rewrite DO. split; auto. apply Q2; auto. apply andb_prop in J. destruct J as (_ & J). unfold doomed in J. now destruct (what_to_do u).
          - exists u. rewrite DO in J. split; auto. apply andb_prop in J. now apply Q1. }
        rewrite X. rewrite failure_bind. rewrite IH; auto.
        -- destruct (existsb _ (queue s')); auto. cbn [abort_if]. now destruct (run_tasks order now limit fuel s') as [[s2 o2]| | |].
        -- cbn [filter] in F. rewrite EL in F. cbn [List.length] in F.
           enough (List.length (filter (eligible now limit) (queue s')) <= List.length (filter (eligible now limit) q))%nat by lia.
           apply NoDup_incl_length; [apply NoDup_filter, NoDup_idents, core_queue, C'|].
           intros u I. apply filter_In in I. apply filter_In. split; [now apply Q1|apply I].
      * discriminate.
      * discriminate.
      * discriminate.
    + assert (X : existsb (fun u => eligible now limit u && doomed now s u) (t :: q) = false); [|now rewrite X].
      destruct (existsb _ (t :: q)) eqn:X; auto. exfalso. apply existsb_exists in X. destruct X as (u & I & J). apply andb_prop in J. destruct J as (J & _).
      pose proof (gq_sorted _ (core_queue s C)) as SO. rewrite EQ in SO. destruct I as [<-|I]; [congruence|]. destruct SO as (SO & _). specialize (SO u I).
      unfold earlier in SO. rewrite before_spec in SO. unfold eligible in *. apply andb_prop in J. destruct J as (J1 & J2). apply N.leb_le in J1. apply N.ltb_lt in J2.
      destruct (N.leb_spec (due t) now) as [D'|D']; [|lia]. cbn [andb] in EL. apply N.ltb_ge in EL.
      pose proof (proj1 LA t ltac:(rewrite EQ; now left) EL). lia.
Qed.
Lemma tick_fails : forall now s, core s -> conn s -> ~ In empty_address (peers s) ->
  failure_of (tick order now s) = abort_if (existsb (fun t => (due t <=? now) && doomed now s t) (queue s)).
Proof.
  intros now s C K N. unfold tick. rewrite failure_bind. rewrite run_tasks_fails; auto.
  - assert (X : existsb (fun t => eligible now (next_id s) t && doomed now s t) (queue s) = existsb (fun t => (due t <=? now) && doomed now s t) (queue s)).
    { apply eq_true_iff_eq. rewrite !existsb_exists. split; intros (t & I & J); exists t; split; auto; unfold eligible in *.
      - apply andb_prop in J. destruct J as (J1 & J2). apply andb_prop in J1. destruct J1 as (J1 & _). now rewrite J1, J2.
      - apply andb_prop in J. destruct J as (J1 & J2). apply (gq_fresh s (core_queue s C)) in I. apply N.ltb_lt in I. now rewrite J1, J2, I. }
    rewrite X. clear X. destruct (existsb _ (queue s)); auto. cbn [abort_if]. destruct (run_tasks _ _ _ _ s) as [[s1 o1]| | |]; auto.
    destruct (do_paging now s1) as [s2 o2]. now destruct (do_inquiry now s2) as [s3 o3].
  - split; [|lia]. intros t I L. apply (gq_fresh s (core_queue s C)) in I. lia.
  - apply filter_shorter.
Qed.

(** * The verdict *)

Definition doom (now : N) (s : bredr) (o : op) : option failure :=
  match o with
  | Command c => doom_command c s
  | AclFromHost _ _ bc _ => abort_if (negb (bc =? 0))
  | ScoFromHost _ _ => None
  | Receive _ p => if for_me p s then doom_packet p s else None
  | Tick => abort_if (existsb (fun t => (due t <=? now) && doomed now s t) (queue s))
  end.
Lemma step_fails : forall now s o, core s -> conn s -> ~ In empty_address (peers s) -> failure_of (step order cfg now s o) = doom now s o.
Proof.
  intros now s o C K N. destruct o; cbn [step doom].
  - rewrite failure_bind, command_fails by auto. destruct (doom_command c s); auto. now destruct (run_command order cfg now s c) as [[[st s'] out]| | |].
  - unfold handle_acl. destruct (negb (broadcast =? 0)); auto.
  - reflexivity.
  - unfold receive. destruct (for_me p s); auto. rewrite failure_bind. destruct (heard_alike now (source p) s C) as (E1 & _).
    rewrite dispatch_fails; [|now apply core_heard|apply (conn_alike s); [now apply heard_alike|exact K]|now rewrite E1].
    rewrite doom_heard by exact C. destruct (doom_packet p s); auto. now destruct (dispatch order cfg now rssi p _) as [[s' out]| | |].
  - rewrite failure_bind, tick_fails by auto. destruct (existsb _ (queue s)); auto. cbn [abort_if]. now destruct (tick order now s) as [[s' out]| | |].
Qed.

Lemma abort_iff : forall b f, abort_if b = Some f <-> b = true /\ f = Aborts.
Proof. intros [] f; cbn; split; [intros [= <-]; auto|intros (_ & ->); auto|discriminate|intros (H & _); discriminate]. Qed.
Lemma hang_iff : forall b f, hang_if b = Some f <-> b = true /\ f = NeverReturns.
Proof. intros [] f; cbn; split; [intros [= <-]; auto|intros (_ & ->); auto|discriminate|intros (H & _); discriminate]. Qed.
Lemma waits_iff : forall x s, has_pending_sco order x s = true <-> waits order x s.
Proof.
  intros x s. unfold has_pending_sco, waits. destruct (sco_of order x s) as [[h c]|].
  - unfold is_pending. split.
    + intros H. exists h, c. split; auto. destruct (sco_now c); auto; discriminate.
    + intros (h' & c' & [= <- <-] & [->|[->| ->]]); reflexivity.
  - split; [discriminate|]. intros (h & c & H & _). discriminate.
Qed.
Lemma two_iff : forall x s, two x s = true <-> (2 <= List.length (calls x s))%nat.
Proof. intros. apply Nat.leb_le. Qed.
Lemma room_iff : forall s, no_room s = true <-> no_handle s.
Proof. intros. apply Nat.eqb_eq. Qed.
Lemma setup_iff : forall h s f, doom_setup h s = Some f <->
  exists c, lookup (acls s) h = Some c /\ ~ waits order (acl_peer c) s /\ no_handle s /\ f = NeverReturns.
Proof.
  intros h s f. unfold doom_setup. destruct (lookup (acls s) h) as [c|].
  - rewrite hang_iff. rewrite andb_true_iff, negb_true_iff, room_iff. rewrite <- not_true_iff_false, waits_iff. split.
    + intros ((A & B) & D). exists c. auto.
    + intros (c' & [= <-] & A & B & D). auto.
  - split; [discriminate|]. intros (c & H & _). discriminate.
Qed.

Lemma doom_fatal : forall now s o f, conn s -> (doom now s o = Some f <-> fatal order cfg now s o f).
Proof.
  intros now s o f K. split.
  - destruct o as [c|h pb bc d|h d|rssi p|]; cbn [doom].
    + destruct c; cbn [doom_command]; try discriminate.
      * destruct (lookup (acls s) h) as [c|] eqn:L; [|discriminate]. rewrite abort_iff, two_iff. intros (T & ->). econstructor; eassumption.
      * rewrite abort_iff, !andb_true_iff, negb_true_iff. intros (((P & A) & E) & ->). apply fatal_accept; auto.
        -- intros I. apply has_linked in I. congruence.
        -- apply crowded_links; auto. now apply N.leb_le.
      * rewrite setup_iff. intros (c & L & W & NH & ->). eapply fatal_setup; eauto. reflexivity.
      * rewrite setup_iff. intros (c & L & W & NH & ->). eapply fatal_setup; eauto. reflexivity.
      * destruct (enhanced_ok p e) eqn:EO; [|discriminate]. rewrite setup_iff. intros (c & L & W & NH & ->). eapply fatal_setup; eauto. cbn. now rewrite EO.
    + rewrite abort_iff, negb_true_iff. intros (B & ->). apply fatal_broadcast. now apply N.eqb_neq.
    + discriminate.
    + destruct (for_me p s) eqn:FM; [|discriminate]. unfold doom_packet. destruct (content p) eqn:CO; try discriminate.
      * rewrite abort_iff, andb_true_iff. intros ((A & B) & ->). eapply fatal_bye; eauto; [now apply has_linked|]. intros E. now rewrite E in B.
      * rewrite abort_iff, andb_true_iff. intros ((A & B) & ->). eapply fatal_response; eauto. apply crowded_links; auto. now apply N.leb_le.
      * destruct (negb (page =? 1) && (lenN (lmp_features cfg) <=? page)) eqn:E; [|discriminate]. intros [= <-].
        apply andb_prop in E. destruct E as (E1 & E2). eapply fatal_page; eauto; [apply N.eqb_neq; now apply negb_true_iff|now apply N.leb_le].
      * rewrite hang_iff, andb_true_iff, negb_true_iff, room_iff. intros ((A & B) & ->). eapply fatal_request; eauto. intros W. apply waits_iff in W. congruence.
      * destruct (sco_of order (source p) s) as [[h c]|] eqn:F; [|discriminate]. rewrite abort_iff. intros (A & ->). eapply fatal_answer; eauto.
        destruct (sco_stream c) as [i|] eqn:E; [|discriminate]. exists h, c, i. auto.
    + rewrite abort_iff, existsb_exists. intros ((t & I & J) & ->). apply andb_prop in J. destruct J as (J1 & J2). unfold doomed in J2. destruct (what_to_do t) eqn:W; try discriminate.
      unfold doomed_link in J2. destruct (lookup (acls s) h) as [c|] eqn:L; [|discriminate]. apply andb_prop in J2. destruct J2 as (J2 & J3).
      apply (fatal_tick order cfg now s h c); auto; [now apply two_iff|now apply N.ltb_lt|]. exists t. split; auto. split; auto. now apply N.leb_le.
  - intros F. destruct F; cbn [doom].
    + rewrite abort_iff, negb_true_iff. split; auto. now apply N.eqb_neq.
    + rewrite H. unfold doom_packet. rewrite H0. apply N.eqb_neq in H1. rewrite H1. apply N.leb_le in H2. now rewrite H2.
    + cbn [doom_command]. rewrite abort_iff, !andb_true_iff, negb_true_iff. split; auto. split; [split|]; auto; [|now apply N.leb_le, crowded_links].
      destruct (has_acl_with x s) eqn:E; auto. apply has_linked in E. contradiction.
    + rewrite H. unfold doom_packet. rewrite H0, abort_iff, andb_true_iff. split; auto. split; auto. now apply N.leb_le, crowded_links.
    + rewrite H. unfold doom_packet. rewrite H0, abort_iff, andb_true_iff. split; auto. split; [now apply has_linked|]. now destruct (calls (source p) s).
    + cbn [doom_command]. rewrite H, abort_iff, two_iff. auto.
    + rewrite abort_iff. split; auto. destruct H2 as (t & I & D & W). apply existsb_exists. exists t. split; auto. apply N.leb_le in D. rewrite D. unfold doomed. rewrite W.
      unfold doomed_link. rewrite H. cbn [andb]. apply andb_true_iff. split; [now apply N.ltb_lt|now apply two_iff].
    + rewrite H. unfold doom_packet. rewrite H0. destruct H1 as (h & c & i & E1 & E2). now rewrite E1, E2.
    + assert (S : doom_setup h s = Some NeverReturns) by (apply setup_iff; eauto).
      destruct o as [c0| | | |]; try discriminate. destruct c0; try discriminate; cbn [asks_for_call] in H; cbn [doom doom_command].
      * injection H as ->. exact S.
      * injection H as ->. exact S.
      * destruct (enhanced_ok p e); [|discriminate]. injection H as ->. exact S.
    + rewrite H. unfold doom_packet. rewrite H0, hang_iff, andb_true_iff, negb_true_iff, room_iff. split; auto. split; auto.
      destruct (has_pending_sco order (source p) s) eqn:E; auto. apply waits_iff in E. contradiction.
Qed.

Theorem fails_exactly : forall h s now o f, history order cfg h s -> ~ linked empty_address s ->
  (failure_of (step order cfg now s o) = Some f <-> fatal order cfg now s o f).
Proof.
  intros h s now o f H N. pose proof (core_history order cfg any_order h s H) as C. pose proof (conn_history order cfg any_order h s H) as K.
  rewrite step_fails by auto. now apply doom_fatal.
Qed.
Lemma filter_le : forall (A : Type) (f : A -> bool) l, (List.length (filter f l) <= List.length l)%nat.
Proof. intros A f l. induction l as [|x l IH]; cbn; auto. destruct (f x); cbn; lia. Qed.
(** Without synchronous connections and with at most six links, only data for several
    devices and requests of missing pages are dangerous *)
Theorem calm_survives : forall h s now o, history order cfg h s -> ~ linked empty_address s -> scos s = [] -> (List.length (peers s) < 7)%nat ->
  calm_op cfg o -> exists r, step order cfg now s o = Ok r.
Proof.
  intros h s now o H N S L C. destruct (failure_of (step order cfg now s o)) as [f|] eqn:F; [exfalso|destruct (step order cfg now s o); try discriminate; eauto].
  apply (fails_exactly h s now o f H N) in F. assert (CN : forall x, calls x s = []) by (intros x; unfold calls; now rewrite S).
  assert (CR : ~ crowded s). { unfold crowded. intros X. apply (Nat.le_lt_trans _ _ _ (Nat.le_trans _ _ _ X (filter_le _ _ _))) in L. lia. }
  assert (NH : ~ no_handle s) by (unfold no_handle; rewrite S; discriminate).
  destruct F; cbn in C; auto; repeat match goal with E : context [calls _ s] |- _ => rewrite CN in E end; cbn in *; try lia; try congruence.
  - rewrite H1 in C. lia.
  - destruct H2 as (x & c & i & E & _). unfold sco_of in E. rewrite S in E. apply find_some in E. destruct E as (E & _). pose proof (Permutation_in _ (any_order []) E). easy.
Qed.
End WithOrder.
