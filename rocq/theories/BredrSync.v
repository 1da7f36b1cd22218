(** The BR/EDR controller: what becomes of its synchronous connections with a device. *)
From Coq Require Import Permutation.
From Verif Require Import Prelude Table Sco Bredr BredrBase BredrInv BredrConn BredrSpec BredrRefine BredrTime BredrFrame BredrData BredrFlow BredrPairSpec BredrPair BredrRemote BredrRole BredrSyncSpec.
From Verif Require Handles.
Import Handles(get_unused_handle, kScoRangeStart, kScoRangeEnd).
Open Scope N_scope.

Definition view : Type := Sco.sco_state * params * link.
Definition seen (c : sco_link) : view := (sco_now c, sco_params c, sco_negotiated c).
Definition shape (x : addr) (s : bredr) : list view := map (fun e => seen (snd e)) (calls x s).
Definition mine (x : addr) (e : N * sco_link) : bool := list_eqb (sco_peer (snd e)) x.
Lemma calls_mine : forall x s, calls x s = filter (mine x) (scos s).
Proof. reflexivity. Qed.
Lemma mine_neq : forall x h c, sco_peer c <> x -> mine x (h, c) = false.
Proof. intros x h c D. unfold mine. cbn. destruct (list_eqb (sco_peer c) x) eqn:E; auto. apply list_eqb_eq in E. contradiction. Qed.
Lemma mine_eq : forall x h c, sco_peer c = x -> mine x (h, c) = true.
Proof. intros x h c <-. unfold mine. cbn. apply list_eqb_refl. Qed.

(** * Tables *)
Lemma filter_put_other : forall x t h c c', lookup t h = Some c -> sco_peer c <> x -> sco_peer c' <> x -> filter (mine x) (put t h c') = filter (mine x) t.
Proof.
  intros x t h c c' L D D'. revert L. induction t as [|[j d] t IH]; cbn [lookup]; [discriminate|]. rewrite put_head. destruct (N.eqb_spec j h) as [->|NE].
  - intros [= ->]. cbn [filter]. now rewrite !mine_neq.
  - intros L. cbn [filter]. now rewrite IH.
Qed.
Lemma shape_put : forall x t h c c', lookup t h = Some c -> sco_peer c' = sco_peer c -> seen c' = seen c ->
  map (fun e => seen (snd e)) (filter (mine x) (put t h c')) = map (fun e => seen (snd e)) (filter (mine x) t).
Proof.
  intros x t h c c' L P S. revert L. induction t as [|[j d] t IH]; cbn [lookup]; [discriminate|]. rewrite put_head. destruct (N.eqb_spec j h) as [->|NE].
  - intros [= ->]. cbn [filter]. assert (M : mine x (h, c') = mine x (h, c)) by (unfold mine; cbn; now rewrite P). rewrite M. destruct (mine x (h, c)); auto. cbn [map snd]. now rewrite S.
  - intros L. cbn [filter]. destruct (mine x (j, d)); [cbn [map]; f_equal; now apply IH|now apply IH].
Qed.
Lemma filter_put_only : forall x t h c c', lookup t h = Some c -> filter (mine x) t = [(h, c)] -> sco_peer c' = x -> filter (mine x) (put t h c') = [(h, c')].
Proof.
  intros x t h c c' L F P. revert L F. induction t as [|[j d] t IH]; cbn [lookup]; [discriminate|]. rewrite put_head. destruct (N.eqb_spec j h) as [->|NE].
  - intros [= ->]. cbn [filter]. rewrite (mine_eq x h c') by auto. destruct (mine x (h, c)) eqn:M; [intros [= ->]; reflexivity|].
    intros F. exfalso. assert (I : In (h, c) (filter (mine x) t)) by (rewrite F; now left). apply filter_In in I. destruct I as (_ & I). congruence.
  - intros L. cbn [filter]. destruct (mine x (j, d)); [intros [= E _ _]; contradiction|]. now apply IH.
Qed.
Lemma filter_erase : forall x t h, filter (mine x) (erase t h) = erase (filter (mine x) t) h.
Proof.
  intros x t h. unfold erase. induction t as [|e t IH]; auto. cbn [filter]. destruct (negb (fst e =? h)) eqn:A, (mine x e) eqn:B; cbn [filter]; rewrite ?A, ?B, IH; reflexivity.
Qed.
Lemma filter_erase_other : forall x t h c, NoDup (keys t) -> lookup t h = Some c -> sco_peer c <> x -> filter (mine x) (erase t h) = filter (mine x) t.
Proof.
  intros x t h c ND L D. rewrite filter_erase. apply erase_absent. intros I. apply in_map_iff in I. destruct I as ([j d] & E & I). cbn in E. subst j.
  apply filter_In in I. destruct I as (I & M). apply in_lookup_nodup in I; auto. assert (d = c) by congruence. subst d. rewrite mine_neq in M; [discriminate|exact D].
Qed.

Definition pend (v : view) : bool := match fst (fst v) with PENDING | SENT_ESCO_CONNECTION_REQUEST | SENT_SCO_CONNECTION_REQUEST => true | _ => false end.
Lemma pend_seen : forall c, pend (seen c) = is_pending c.
Proof. reflexivity. Qed.
Definition busy (l : list view) : bool := match l with v :: _ => pend v | [] => false end.

Section WithOrder.
Variable order : table sco_link -> table sco_link.
Variable cfg : config.
Hypothesis any_order : forall t, Permutation (order t) t.

Lemma perm_filter : forall (T : Type) (f : T -> bool) l l', Permutation l l' -> Permutation (filter f l) (filter f l').
Proof.
  intros T f l l' P. induction P as [|x l l' P IH|x y l|l l' l'' P1 IH1 P2 IH2]; cbn [filter]; auto.
  - destruct (f x); auto.
  - destruct (f x), (f y); auto using perm_swap.
  - eapply perm_trans; eassumption.
Qed.
Lemma find_filter : forall (T : Type) (f : T -> bool) l, find f l = hd_error (filter f l).
Proof. intros T f l. induction l as [|x l IH]; auto. cbn. now destruct (f x). Qed.
Lemma sco_of_calls : forall x s, (List.length (calls x s) <= 1)%nat -> sco_of order x s = hd_error (calls x s).
Proof.
  intros x s H. unfold sco_of. rewrite find_filter. rewrite calls_mine in *. change (fun e : N * sco_link => list_eqb (sco_peer (snd e)) x) with (mine x).
  pose proof (perm_filter _ (mine x) _ _ (any_order (scos s))) as P. destruct (filter (mine x) (scos s)) as [|e [|e' l]].
  - apply Permutation_sym, Permutation_nil in P. now rewrite P.
  - apply Permutation_sym, Permutation_length_1_inv in P. now rewrite P.
  - cbn in H. lia.
Qed.
Lemma sco_of_none : forall x s, sco_of order x s = None -> calls x s = [].
Proof.
  intros x s H. unfold sco_of in H. rewrite find_filter in H. rewrite calls_mine. pose proof (perm_filter _ (mine x) _ _ (any_order (scos s))) as P.
  change (fun e : N * sco_link => list_eqb (sco_peer (snd e)) x) with (mine x) in H. destruct (filter (mine x) (order (scos s))) as [|e l]; [|discriminate].
  now apply Permutation_nil in P.
Qed.
Lemma pending_calls : forall x s, (List.length (calls x s) <= 1)%nat -> has_pending_sco order x s = busy (shape x s).
Proof.
  intros x s H. unfold has_pending_sco. rewrite sco_of_calls by auto. unfold shape. destruct (calls x s) as [|[h c] l]; reflexivity.
Qed.

Definition keeps (x : addr) (s s' : bredr) : Prop := shape x s' = shape x s.
Lemma keeps_same : forall x s s', scos s' = scos s -> keeps x s s'.
Proof. intros x s s' E. unfold keeps, shape, calls. now rewrite E. Qed.
Lemma keeps_trans : forall x s s' s'', keeps x s s' -> keeps x s' s'' -> keeps x s s''.
Proof. unfold keeps. congruence. Qed.
Lemma keeps_open_stream : forall x now h s s', open_stream order now h s = Ok s' -> keeps x s s'.
Proof.
  intros x now h s s'. unfold open_stream. destruct (lookup (scos s) h) as [c|] eqn:L; [|intros [= <-]; now apply keeps_same].
  destruct (sco_stream c); [discriminate|]. destruct (sco_spoofed c); [|intros [= <-]; now apply keeps_same].
  destruct (sco_of order (sco_peer c) s) as [[h' c']|]; [|discriminate]. unfold start_stream. intros [= <-].
  unfold keeps, shape. rewrite !calls_mine. cbn [scos with_scos]. eapply shape_put; [exact L|reflexivity|reflexivity].
Qed.
Lemma nodup_scos : forall s, core s -> NoDup (keys (scos s)).
Proof. intros s C. apply (HandlesProofs.tinv_nodup _ _ _ _ (core_sco s C)). Qed.
Lemma length_shape : forall x s, List.length (shape x s) = List.length (calls x s).
Proof. intros. apply map_length. Qed.
Lemma only_call : forall x s h c, (List.length (calls x s) <= 1)%nat -> sco_of order x s = Some (h, c) -> calls x s = [(h, c)] .
Proof.
  intros x s h c LE F. rewrite sco_of_calls in F by auto. destruct (calls x s) as [|e [|e' l]]; [discriminate| |cbn in LE; lia]. now injection F as ->.
Qed.
Lemma shape_only : forall x s h c, calls x s = [(h, c)] -> shape x s = [seen c].
Proof. intros x s h c E. unfold shape. now rewrite E. Qed.

(** The answer of the host *)
Definition answered (x : addr) (p : option params) (s : bredr) : list view :=
  match shape x s with
  | v :: _ => if pend v then match negotiate (fst (fst v)) (snd (fst v)) (match p with Some p => p | None => snd (fst v) end) with
                             | Some l => [(OPENED, snd (fst v), l)] | None => [] end
              else shape x s
  | [] => []
  end.
Lemma cancel_other : forall x y s, core s -> x <> y -> keeps x s (cancel_sco order y s).
Proof.
  intros x y s C D. unfold cancel_sco. destruct (sco_of order y s) as [[h c]|] eqn:F; [|now apply keeps_same].
  destruct (sco_lookup order any_order _ _ _ _ C F) as (L & P). unfold keeps, shape. rewrite !calls_mine. cbn [scos with_scos].
  erewrite filter_erase_other; [reflexivity|now apply nodup_scos|exact L|congruence].
Qed.
Lemma cancel_mine : forall x s, (List.length (calls x s) <= 1)%nat -> shape x (cancel_sco order x s) = [].
Proof.
  intros x s LE. unfold cancel_sco. destruct (sco_of order x s) as [[h c]|] eqn:F.
  - pose proof (only_call _ _ _ _ LE F) as E. unfold shape. rewrite calls_mine in *. cbn [scos with_scos]. rewrite filter_erase, E. unfold erase. cbn. now rewrite N.eqb_refl.
  - apply sco_of_none in F. unfold shape. now rewrite F.
Qed.
Lemma negotiated_other : forall x now h c p s l s', core s -> lookup (scos s) h = Some c -> sco_peer c <> x ->
  accept_negotiated order now h c p s = Ok (l, s') -> keeps x s s' /\ core s'.
Proof.
  intros x now h c p s l s' C L D H. pose proof (core_accept_negotiated order _ _ _ _ _ _ _ C L H) as C'. split; auto. clear C'. revert H.
  unfold accept_negotiated. assert (Z : forall c', sco_peer c' = sco_peer c -> keeps x s (with_scos (put (scos s) h c') s)).
  { intros c' E. unfold keeps, shape. rewrite !calls_mine. cbn [scos with_scos]. erewrite filter_put_other; [reflexivity|exact L|exact D|congruence]. }
  destruct (negotiate _ _ _) as [k|]; [|intros [= <- <-]; now apply Z].
  intros H. unbind H. injection H as <- <-. eapply keeps_trans; [|eapply keeps_open_stream; exact E]. now apply Z.
Qed.
Lemma negotiated_mine : forall x now h c p s l s', lookup (scos s) h = Some c -> calls x s = [(h, c)] ->
  accept_negotiated order now h c p s = Ok (l, s') -> l = negotiate (sco_now c) (sco_params c) p /\ (List.length (calls x s') <= 1)%nat /\
    (forall k, l = Some k -> shape x s' = [(OPENED, sco_params c, k)]).
Proof.
  intros x now h c p s l s' L E. assert (P : sco_peer c = x).
  { assert (I : In (h, c) (calls x s)) by (rewrite E; now left). rewrite calls_mine in I. apply filter_In in I. destruct I as (_ & I). unfold mine in I. now apply list_eqb_eq in I. }
  unfold accept_negotiated. rewrite calls_mine in E. destruct (negotiate _ _ _) as [k|].
  - intros H. unbind H. injection H as <- <-. split; auto. pose proof (keeps_open_stream x _ _ _ _ E0) as K. unfold keeps in K.
    assert (Z : shape x x0 = [(OPENED, sco_params c, k)]). { rewrite K. unfold shape. rewrite calls_mine. cbn [scos with_scos]. erewrite filter_put_only; [reflexivity|exact L|exact E|exact P]. }
    rewrite <- length_shape, Z. split; [cbn; lia|]. now intros ? [= <-].
  - intros [= <- <-]. split; auto. split; [|discriminate]. rewrite calls_mine. cbn [scos with_scos]. erewrite filter_put_only; [cbn; lia|exact L|exact E|exact P].
Qed.
Lemma accept_shape : forall x now y p s l s' h c, core s -> (List.length (calls x s) <= 1)%nat -> sco_of order y s = Some (h, c) -> is_pending c = true ->
  accept_negotiated order now h c p s = Ok (l, s') ->
  shape x (match l with Some _ => s' | None => cancel_sco order y s' end) =
    if list_eqb y x then match negotiate (sco_now c) (sco_params c) p with Some k => [(OPENED, sco_params c, k)] | None => [] end else shape x s.
Proof.
  intros x now y p s l s' h c C LE F PD H. destruct (sco_lookup order any_order _ _ _ _ C F) as (L & P). destruct (list_eqb y x) eqn:E.
  - apply list_eqb_eq in E. subst y. rewrite E in F. pose proof (only_call _ _ _ _ LE F) as EC. destruct (negotiated_mine _ _ _ _ _ _ _ _ L EC H) as (-> & LE' & Z).
    destruct (negotiate (sco_now c) (sco_params c) p) as [k|]; [now apply Z|]. rewrite E. now apply cancel_mine.
  - assert (D : x <> y). { intros ->. rewrite list_eqb_refl in E. discriminate. }
    destruct (negotiated_other x _ _ _ _ _ _ _ C L ltac:(congruence) H) as (K & C'). destruct l; [exact K|]. rewrite (cancel_other x y s' C' D). exact K.
Qed.
Lemma create_shape : forall x y p st sp leg s h s', core s -> create_sco y p st sp leg s = Ok (h, s') ->
  shape x s' = if list_eqb y x then shape x s ++ [(st, p, no_link)] else shape x s.
Proof.
  intros x y p st sp leg s h s' C H. unfold create_sco in H. destruct (get_unused_handle _ _ _ _) as [[h' l]|] eqn:G; [|discriminate]. injection H as <- <-.
  assert (N : ~ In h' (keys (scos s))). { destruct (tinv_alloc _ 256 511 _ _ _ _ (ScoLink y p no_link st sp leg None) eq_refl (core_sco s C) G) as (_ & N & _). exact N. }
  unfold shape. rewrite !calls_mine. cbn [scos with_scos with_last_sco]. rewrite put_absent by exact N. rewrite filter_app, map_app. cbn [filter].
  change (mine x (h', ScoLink y p no_link st sp leg None)) with (list_eqb y x). destruct (list_eqb y x); [reflexivity|]. apply app_nil_r.
Qed.

(** * Operations *)
Definition setup (x : addr) (h : N) (p : params) (s : bredr) : list view :=
  match lookup (acls s) h with
  | Some c => if list_eqb (acl_peer c) x && negb (busy (shape x s)) then shape x s ++ [(PENDING, p, no_link)] else shape x s
  | None => shape x s
  end.
Definition accepted (x y : addr) (p : option params) (s : bredr) : list view := if list_eqb y x then answered x p s else shape x s.
Definition after_command (x : addr) (c : command) (s : bredr) : list view :=
  match c with
  | AddSco h t => setup x h (legacy_params t) s
  | SetupSync h p => setup x h p s
  | EnhancedSetup h p e => if enhanced_ok p e then setup x h (with_voice_of s p) s else shape x s
  | AcceptConnection y _ => if paged_by y s then shape x s else accepted x y None s
  | AcceptSync y p => accepted x y (Some p) s
  | EnhancedAccept y p e => if enhanced_ok p e then accepted x y (Some (with_voice_of s p)) s else shape x s
  | RejectSync y _ => if list_eqb y x && busy (shape x s) then [] else shape x s
  | _ => shape x s
  end.
Definition ringing (p : params) : view := (if is_extended p then SENT_ESCO_CONNECTION_REQUEST else SENT_SCO_CONNECTION_REQUEST, p, no_link).
Definition after_packet (x : addr) (p : air) (s : bredr) : list view :=
  if list_eqb (source p) x then
    match content p with
    | ScoRequest q _ => if busy (shape x s) then shape x s else shape x s ++ [ringing q]
    | ScoResponse st l => match shape x s with v :: _ => if st =? SUCCESS then [(OPENED, snd (fst v), l)] else [] | [] => [] end
    | ScoBye _ => []
    | _ => shape x s
    end
  else shape x s.
Definition after (x : addr) (o : op) (s : bredr) : list view :=
  match o with
  | Command c => after_command x c s
  | Receive _ p => if for_me p s then after_packet x p s else shape x s
  | _ => shape x s
  end.
(** The host does not close a synchronous connection with [x] *)
Definition keeps_calls (x : addr) (o : op) (s : bredr) : Prop :=
  match o with Command (Disconnect h _) => forall c, lookup (scos s) h = Some c -> sco_peer c <> x | _ => True end.

Lemma setup_shape : forall x now h p sp leg s st s', core s -> (List.length (calls x s) <= 1)%nat ->
  setup_sync order now h p sp leg s = Ok (st, s') -> shape x s' = setup x h p s.
Proof.
  intros x now h p sp leg s st s' C LE. unfold setup_sync, setup. destruct (lookup (acls s) h) as [c|]; [|now intros [= <- <-]]. cbv zeta.
  destruct (list_eqb (acl_peer c) x) eqn:E.
  - apply list_eqb_eq in E. rewrite E, pending_calls by auto. destruct (busy (shape x s)); [now intros [= <- <-]|]. intros H. unbind H. injection H as <- <-.
    apply (create_shape x) in E0; auto. rewrite list_eqb_refl in E0. cbn [negb andb]. rewrite <- E0. now apply keeps_same.
  - destruct (has_pending_sco order (acl_peer c) s); [now intros [= <- <-]|]. intros H. unbind H. injection H as <- <-.
    apply (create_shape x) in E0; auto. rewrite E in E0. cbn [andb]. rewrite <- E0. now apply keeps_same.
Qed.
Lemma accept_sync_shape : forall x now y p s st s', core s -> (List.length (calls x s) <= 1)%nat -> accept_sync order now y p s = Ok (st, s') ->
  shape x s' = accepted x y (Some p) s.
Proof.
  intros x now y p s st s' C LE H. unfold accept_sync in H. unfold accepted, answered. destruct (sco_of order y s) as [[h c]|] eqn:F.
  - destruct (is_pending c) eqn:PD.
    + unbind H. injection H as <- <-. match goal with |- shape x ?z = _ => assert (Z : scos z = scos (match o with Some _ => b | None => cancel_sco order y b end)) by (destruct o; reflexivity) end.
      transitivity (shape x (match o with Some _ => b | None => cancel_sco order y b end)); [unfold shape, calls; now rewrite Z|]. rewrite (accept_shape _ _ _ _ _ _ _ _ _ C LE F PD E).
      destruct (list_eqb y x) eqn:EQ; auto. apply list_eqb_eq in EQ. rewrite EQ in F. rewrite (shape_only _ _ _ _ (only_call _ _ _ _ LE F)). rewrite pend_seen, PD. reflexivity.
    + injection H as <- <-. destruct (list_eqb y x) eqn:EQ; auto. apply list_eqb_eq in EQ. rewrite EQ in F. rewrite (shape_only _ _ _ _ (only_call _ _ _ _ LE F)). now rewrite pend_seen, PD.
  - injection H as <- <-. destruct (list_eqb y x) eqn:EQ; auto. apply list_eqb_eq in EQ. rewrite EQ in F. apply sco_of_none in F. unfold shape. now rewrite F.
Qed.
Lemma open_scos : forall now a r pol s h s1 s2, core s -> create_acl now a r pol s = Ok (h, s1) -> check_link order now h s1 = Ok s2 -> scos s2 = scos s.
Proof. intros now a r pol s h s1 s2 C E E0. destruct (open_effect order _ _ _ _ _ _ _ _ C E E0) as (N & R & l & ->). reflexivity. Qed.
Lemma accept_connection_shape : forall x now y try s st s', core s -> (List.length (calls x s) <= 1)%nat -> accept_connection order now y try s = Ok (st, s') ->
  shape x s' = if paged_by y s then shape x s else accepted x y None s.
Proof.
  intros x now y try s st s' C LE H. unfold accept_connection in H. destruct (paged_by y s).
  - apply keeps_same. destruct (has_acl_with y s); [now injection H as <- <-|]. cbv zeta in H.
    match type of H with context [create_acl now y ?r _ _] => set (r0 := r) in *; clearbody r0 end. unbind H. injection H as <- <-.
    pose proof (open_scos _ _ _ _ _ _ _ _ C E E0) as Z. apply add_link_effect in E1. destruct E1 as (_ & ->). rewrite <- Z.
    repeat match goal with |- context [if ?b then _ else _] => match type of b with bool => destruct b end end; reflexivity.
  - unfold accepted, answered. destruct (sco_of order y s) as [[h c]|] eqn:F.
    + destruct (is_pending c) eqn:PD.
      * unbind H. injection H as <- <-. match goal with |- shape x ?z = _ => assert (Z : scos z = scos (match o with Some _ => b | None => cancel_sco order y b end)) end.
        { match goal with |- context [if ?b then _ else _] => destruct b end; destruct o; reflexivity. }
        transitivity (shape x (match o with Some _ => b | None => cancel_sco order y b end)); [unfold shape, calls; now rewrite Z|]. rewrite (accept_shape _ _ _ _ _ _ _ _ _ C LE F PD E).
        destruct (list_eqb y x) eqn:EQ; auto. apply list_eqb_eq in EQ. rewrite EQ in F. rewrite (shape_only _ _ _ _ (only_call _ _ _ _ LE F)). rewrite pend_seen, PD. reflexivity.
      * injection H as <- <-. destruct (list_eqb y x) eqn:EQ; auto. apply list_eqb_eq in EQ. rewrite EQ in F. rewrite (shape_only _ _ _ _ (only_call _ _ _ _ LE F)). now rewrite pend_seen, PD.
    + injection H as <- <-. destruct (list_eqb y x) eqn:EQ; auto. apply list_eqb_eq in EQ. rewrite EQ in F. apply sco_of_none in F. unfold shape. now rewrite F.
Qed.
Lemma close_other : forall x h s c, core s -> lookup (scos s) h = Some c -> sco_peer c <> x -> keeps x s (close_sco h s).
Proof.
  intros x h s c C L D. unfold close_sco. rewrite L. cbv zeta. unfold keeps, shape. rewrite !calls_mine. cbn [scos with_scos].
  assert (Z : scos (stop_stream c s) = scos s) by (unfold stop_stream; now destruct (sco_stream c)). rewrite Z.
  erewrite filter_erase_other; [reflexivity|now apply nodup_scos|exact L|exact D].
Qed.
Lemma scos_tell_disconnection : forall now h r s, scos (tell_disconnection now h r s) = scos s.
Proof. intros. unfold tell_disconnection. now destruct (unmasked s 5). Qed.
(** The links with [x] are all gone *)
Definition parted (x : addr) (s : bredr) : Prop := acl_of x s = None.
Lemma erase_parted : forall x s h c t, lookup (acls s) h = Some c -> acl_peer c = x -> (forall h' c', In (h', c') (acls s) -> acl_peer c' = x -> h' = h) ->
  acls t = erase (acls s) h -> parted x t.
Proof.
  intros x s h c t L P U E. unfold parted. destruct (acl_of x t) as [[j d]|] eqn:F; auto. apply acl_of_some in F. destruct F as (I & EQ). rewrite E in I. apply in_erase in I. destruct I as (I & D).
  cbn in D. elim D. eapply U; eassumption.
Qed.
Definition single (x : addr) (s : bredr) : Prop := forall h c h' c', In (h, c) (acls s) -> In (h', c') (acls s) -> acl_peer c = x -> acl_peer c' = x -> h = h'.
Lemma disconnect_shape : forall x now h r r' s st s', core s -> single x s -> (forall c, lookup (scos s) h = Some c -> sco_peer c <> x) ->
  disconnect order now h r r' s = Ok (st, s') -> keeps x s s' \/ parted x s'.
Proof.
  intros x now h r r' s st s' C U NC H. pose proof (disconnect_effect order _ _ _ _ _ _ _ C H) as DE. unfold disconnect in H. destruct (lookup (scos s) h) as [c|] eqn:L.
  - left. injection H as <- <-. unfold keeps. transitivity (shape x (close_sco h (transmit now (to_peer s (sco_peer c) (ScoBye r)) s))).
    + unfold shape, calls. now rewrite scos_tell_disconnection.
    + pose proof (close_other x h (transmit now (to_peer s (sco_peer c) (ScoBye r)) s) c ltac:(apply core_schedule; exact C) L (NC c eq_refl)) as K. exact K.
  - destruct DE as [(_ & -> & _)|[(_ & X & _)|(_ & _ & c & LA & EA & _)]]; [left; reflexivity|now elim X|].
    rewrite LA in H. destruct (list_eqb (acl_peer c) x) eqn:EQ.
    + right. apply list_eqb_eq in EQ. eapply erase_parted; [exact LA|exact EQ| |exact EA]. intros h' c' I P. apply (U h' c' h c); auto. now apply lookup_pair.
    + left. assert (D : acl_peer c <> x) by (intros E; rewrite E, list_eqb_refl in EQ; discriminate). unbind H. injection H as <- <-. apply remove_link_effect in E0. destruct E0 as (_ & ->).
      unfold keeps. unfold close_acl in E. match type of E with (match lookup (acls ?z) h with _ => _ end = _) => set (s1 := z) in * end.
      transitivity (shape x s1).
      * unfold shape, calls. cbn [scos with_links]. rewrite scos_tell_disconnection. destruct (lookup (acls s1) h); [|now injection E as <-]. destruct (sco_of order _ s1); [discriminate|]. now injection E as <-.
      * unfold s1. unfold shape, calls. cbn [scos transmit schedule with_queue with_next_id]. change (keeps x s (match sco_of order (acl_peer c) s with
          | Some (sh, _) => tell_disconnection now sh r' (close_sco sh (transmit now (to_peer s (acl_peer c) (ScoBye r)) s)) | None => s end)).
        destruct (sco_of order (acl_peer c) s) as [[sh sc]|] eqn:F; [|reflexivity]. destruct (sco_lookup order any_order _ _ _ _ C F) as (L' & P').
        unfold keeps. transitivity (shape x (close_sco sh (transmit now (to_peer s (acl_peer c) (ScoBye r)) s))); [unfold shape, calls; now rewrite scos_tell_disconnection|].
        apply (close_other x sh (transmit now (to_peer s (acl_peer c) (ScoBye r)) s) sc ltac:(apply core_schedule; exact C) L'). congruence.
Qed.
Lemma check_link_shape : forall x now h s s', core s -> single x s -> check_link order now h s = Ok s' -> keeps x s s' \/ parted x s'.
Proof.
  intros x now h s s' C U. unfold check_link. destruct (lookup (acls s) h) as [c|] eqn:L; [|intros [= <-]; left; reflexivity].
  destruct (_ <? _); [|destruct (_ <? _)].
  - intros H. unbind H. injection H as <-. eapply disconnect_shape; [exact C|exact U| |eassumption].
    intros d LD. exfalso. apply lookup_in in L, LD. apply (HandlesProofs.tinv_range _ _ _ _ (core_acl s C)) in L. apply (HandlesProofs.tinv_range _ _ _ _ (core_sco s C)) in LD.
    unfold HandlesProofs.in_range in *. lia.
  - intros [= <-]. left. reflexivity.
  - intros [= <-]. left. reflexivity.
Qed.
Lemma single_fewer : forall x s s', core s -> core s' -> fewer s s' -> single x s -> single x s'.
Proof.
  intros x s s' C C' F U h c h' c' I I' P P'. apply in_lookup_nodup in I, I'; try apply (HandlesProofs.tinv_nodup _ _ _ _ (core_acl s' C')).
  destruct (F _ _ I) as (d & L & E & _). destruct (F _ _ I') as (d' & L' & E' & _). eapply (U h d h' d'); try (now apply lookup_pair); congruence.
Qed.
Lemma parted_fewer : forall x s s', core s' -> fewer s s' -> parted x s -> parted x s'.
Proof.
  intros x s s' C F P. unfold parted in *. destruct (acl_of x s') as [[h c]|] eqn:A; auto. destruct (acl_lookup _ _ _ _ C A) as (L & E). destruct (F _ _ L) as (d & LD & ED & _).
  elim (acl_of_none x s h d P); [now apply lookup_pair|congruence].
Qed.
Lemma job_shape : forall x now t q s s' out, core s -> queue s = t :: q -> single x s -> run_job order now t (with_queue q s) = Ok (s', out) ->
  fewer s s' /\ (keeps x s s' \/ parted x s').
Proof.
  intros x now t q s s' out C EQ U E. pose proof (core_pop t q s C EQ) as C1.
  assert (Z : forall y, acls y = acls s -> scos y = scos s -> fewer s y /\ (keeps x s y \/ parted x y)).
  { intros y EA ES. split; [now apply (fewer_same s s), fewer_refl|left; now apply keeps_same]. }
  unfold run_job in E. destruct (what_to_do t); try (injection E as <- <-; apply Z; reflexivity).
  - unfold answering in E. unbind E. injection E as <- <-. split.
    + apply (fewer_trans s (with_queue q s)); [now apply Z|]. eapply fewer_check_link; eassumption.
    + apply (check_link_shape x) in E0; auto.
  - unfold silent in E. injection E as <- <-. apply Z; unfold send_sco; cbn [scos with_queue]; now destruct (lookup (scos s) h).
Qed.
Lemma run_tasks_shape : forall x now limit fuel s s' out, core s -> single x s -> run_tasks order now limit fuel s = Ok (s', out) -> keeps x s s' \/ parted x s'.
Proof.
  intros x now limit. induction fuel as [|fuel IH]; cbn [run_tasks]; intros s s' out C U H; [injection H as <- <-; left; reflexivity|].
  destruct (queue s) as [|t q] eqn:EQ; [injection H as <- <-; left; reflexivity|].
  destruct ((due t <=? now) && (ident t <? limit)); [|injection H as <- <-; left; reflexivity]. unbind H. injection H as <- <-.
  pose proof (core_run_job order _ _ _ _ _ _ C EQ E) as C'. destruct (job_shape x _ _ _ _ _ _ C EQ U E) as (F & [K|P]).
  - destruct (IH _ _ _ C' (single_fewer _ _ _ C C' F U) E0) as [K'|P]; [left; eapply keeps_trans; eassumption|now right].
  - right. eapply parted_fewer; [|eapply run_tasks_fewer; [|eassumption]|exact P]; auto. eapply core_run_tasks; eassumption.
Qed.
Lemma tick_shape : forall x now s s' out, core s -> single x s -> tick order now s = Ok (s', out) -> keeps x s s' \/ parted x s'.
Proof.
  intros x now s s' out C U H. unfold tick in H. unbind H. injection H as <- <-. apply (run_tasks_shape x) in E; auto.
  assert (A1 : acls b0 = acls b /\ scos b0 = scos b) by (unfold do_paging in E0; destruct (page b) as [pg|]; [|now injection E0 as <- <-]; destruct (_ <=? _); [now injection E0 as <- <-|]; destruct (_ && _); now injection E0 as <- <-).
  assert (A2 : acls b1 = acls b0 /\ scos b1 = scos b0) by (unfold do_inquiry in E1; destruct (inquiry b0) as [pg|]; [|now injection E1 as <- <-]; destruct (_ <=? _); [now injection E1 as <- <-|]; destruct (_ <=? _); now injection E1 as <- <-).
  destruct A1 as (A1 & B1), A2 as (A2 & B2). destruct E as [K|P].
  - left. eapply keeps_trans; [exact K|]. apply keeps_same. congruence.
  - right. unfold parted, acl_of in *. rewrite A2, A1. exact P.
Qed.
Lemma command_shape : forall x now s c st s' out, core s -> single x s -> (List.length (calls x s) <= 1)%nat -> keeps_calls x (Command c) s ->
  run_command order cfg now s c = Ok (st, s', out) -> shape x s' = after_command x c s \/ parted x s'.
Proof.
  intros x now s c st s' out C U LE KC H.
  assert (Z : forall y, scos y = scos s -> shape x y = shape x s \/ parted x y) by (intros y E; left; now apply keeps_same).
  destruct c; cbn [run_command] in H; unfold quiet in H; cbn [after_command];
    try (injection H as <- <- <-; cbn [fst snd]; apply Z; reflexivity).
  - injection H as <- <- <-. unfold start_inquiry. apply Z. destruct (_ || _); auto. destruct (inquiry s); auto.
  - injection H as <- <- <-. unfold cancel_inquiry. apply Z. destruct (inquiry s); auto.
  - injection H as <- <- <-. unfold create_connection. apply Z. destruct (page s); auto. destruct (has_acl_with a s); auto. destruct (paged_by a s); auto.
  - injection H as <- <- <-. unfold cancel_connection. apply Z. destruct (paging a s); auto. cbn [snd]. now destruct (unmasked s 3).
  - unbind H. injection H as <- <- <-. eapply disconnect_shape; eassumption.
  - unbind H. injection H as <- <- <-. left. eapply accept_connection_shape; eassumption.
  - injection H as <- <- <-. unfold reject_connection. apply Z. destruct (paged_by a s); auto.
  - injection H as <- <- <-. unfold change_packet_type. apply Z. destruct (has (acls s) h); auto.
  - injection H as <- <- <-. unfold ask_peer. apply Z. destruct (lookup (acls s) h); auto.
  - injection H as <- <- <-. unfold ask_peer. apply Z. destruct (lookup (acls s) h); auto.
  - injection H as <- <- <-. unfold ask_peer. apply Z. destruct (lookup (acls s) h); auto.
  - injection H as <- <- <-. unfold ask_peer. apply Z. destruct (lookup (acls s) h); auto.
  - unbind H. injection H as <- <- <-. left. eapply setup_shape; eassumption.
  - unbind H. injection H as <- <- <-. left. eapply setup_shape; eassumption.
  - unbind H. injection H as <- <- <-. left. eapply accept_sync_shape; eassumption.
  - injection H as <- <- <-. left. unfold reject_sync. cbv zeta. destruct (list_eqb a x) eqn:EQ; cbn [andb].
    + apply list_eqb_eq in EQ. subst a. rewrite pending_calls by auto. destruct (busy (shape x s)); [|reflexivity]. cbn [snd].
      rewrite <- (cancel_mine x s LE). now apply keeps_same.
    + destruct (has_pending_sco order a s); [|reflexivity]. cbn [snd]. assert (D : x <> a) by (intros ->; rewrite list_eqb_refl in EQ; discriminate).
      rewrite <- (cancel_other x a s C D). now apply keeps_same.
  - destruct (enhanced_ok p e); [|injection H as <- <- <-; now apply Z]. unbind H. injection H as <- <- <-. left. eapply setup_shape; eassumption.
  - destruct (enhanced_ok p e); [|injection H as <- <- <-; now apply Z]. unbind H. injection H as <- <- <-. left. eapply accept_sync_shape; eassumption.
  - injection H as <- <- <-. unfold qos_setup. apply Z. destruct (negb _); auto. destruct (2 <? service); auto. cbn [snd]. now destruct (unmasked s _).
  - destruct (lookup (acls s) h); injection H as <- <- <-; now apply Z.
  - injection H as <- <- <-. unfold switch_role. apply Z. destruct (acl_of a s) as [[h c]|]; auto. destruct (sco_of order a s); auto. cbn [snd].
    destruct (negb _); auto. now destruct (unmasked s _).
  - injection H as <- <- <-. unfold write_link_policy. apply Z. destruct (lookup (acls s) h) as [c|] eqn:L; auto. destruct (7 <? n); auto.
  - destruct (7 <? n); injection H as <- <- <-; now apply Z.
  - injection H as <- <- <-. right. reflexivity.
Qed.
Lemma close_mine : forall x h c s, calls x s = [(h, c)] -> lookup (scos s) h = Some c -> shape x (close_sco h s) = [].
Proof.
  intros x h c s E L. unfold close_sco. rewrite L. cbv zeta. unfold shape. rewrite calls_mine in *. cbn [scos with_scos].
  assert (Z : scos (stop_stream c s) = scos s) by (unfold stop_stream; now destruct (sco_stream c)). rewrite Z, filter_erase, E. unfold erase. cbn. now rewrite N.eqb_refl.
Qed.
Lemma dispatch_shape : forall x now rssi p s s' out, core s -> single x s -> (List.length (calls x s) <= 1)%nat ->
  dispatch order cfg now rssi p s = Ok (s', out) -> shape x s' = after_packet x p s \/ parted x s'.
Proof.
  intros x now rssi p s s' out C U LE H. unfold dispatch in H. unfold after_packet.
  assert (Z : forall y, scos y = scos s -> shape x y = (if list_eqb (source p) x then shape x s else shape x s) \/ parted x y) by (intros y E; left; destruct (list_eqb (source p) x); now apply keeps_same).
  destruct (content p) eqn:CO; unfold silent, answering in H; 
    try (injection H as <- <-; apply Z; reflexivity).
  - (* Bye *) unbind H. injection H as <- <-. apply bye_effect in E; auto. destruct E as [(_ & ->)|(h & c & _ & L & E1 & _ & ->)]; [now apply Z|]. apply Z. now rewrite scos_tell_disconnection.
  - (* Inquiry *) injection H as <- <-. apply Z. unfold receive_inquiry. repeat match goal with |- context [if ?b then _ else _] => destruct b end; reflexivity.
  - (* Page *) injection H as H. unfold receive_page in H. apply Z.
    destruct (negb (page_scan_enable s)); [now injection H as <- <-|]. destruct (negb _); [now injection H as <- <-|].
    destruct (has_acl_with _ s); [now injection H as <- <-|]. destruct (page_scan s); now injection H as <- <-.
  - (* PageResponse *) apply response_effect in H; auto. destruct H as [(_ & -> & _)|(_ & _ & h & _ & _ & _ & _ & _ & _ & _ & _ & E & _)]; now apply Z.
  - (* PageReject *) injection H as H. unfold receive_page_reject in H. apply Z. destruct (paging (source p) s); now injection H as <- <-.
  - (* ExtendedFeaturesRequest *) unbind H. injection H as <- <-. apply Z. unfold receive_extended_request in E. match type of E with context [get_features cfg s ?m] => destruct (get_features cfg s m) end; [|discriminate]. now injection E as <-.
  - (* ScoRequest *) left. unfold receive_sco_request in H. destruct (list_eqb (source p) x) eqn:EQ.
    + apply list_eqb_eq in EQ. rewrite EQ, pending_calls in H by auto. destruct (busy (shape x s)); [injection H as <- <-; now apply keeps_same|].
      cbv zeta in H. unbind H. injection H as <- <-. apply (create_shape x) in E; auto. rewrite list_eqb_refl in E. exact E.
    + destruct (has_pending_sco order (source p) s); [injection H as <- <-; now apply keeps_same|]. cbv zeta in H. unbind H. injection H as <- <-.
      apply (create_shape x) in E; auto. rewrite EQ in E. exact E.
  - (* ScoResponse *) left. unfold receive_sco_response in H. destruct (sco_of order (source p) s) as [[h c]|] eqn:F.
    + destruct (sco_lookup order any_order _ _ _ _ C F) as (L & P). cbv zeta in H. destruct (list_eqb (source p) x) eqn:EQ.
      * apply list_eqb_eq in EQ. rewrite EQ in *. pose proof (only_call _ _ _ _ LE F) as OC. rewrite (shape_only _ _ _ _ OC). destruct (st =? SUCCESS).
        -- unbind H. injection H as <- <-. unfold accept_given in E. rewrite (keeps_open_stream x _ _ _ _ E). unfold shape. rewrite calls_mine in *. cbn [scos with_scos].
           erewrite filter_put_only; [reflexivity|exact L|exact OC|exact P].
        -- no_stream H. injection H as <- <-. now apply cancel_mine.
      * assert (D : source p <> x) by (intros E; rewrite E, list_eqb_refl in EQ; discriminate). destruct (st =? SUCCESS).
        -- unbind H. injection H as <- <-. unfold accept_given in E. rewrite (keeps_open_stream x _ _ _ _ E). unfold shape. rewrite !calls_mine. cbn [scos with_scos].
           erewrite filter_put_other; [reflexivity|exact L|congruence|cbn; congruence].
        -- no_stream H. injection H as <- <-. apply cancel_other; auto.
    + injection H as <- <-. destruct (list_eqb (source p) x) eqn:EQ; auto. apply list_eqb_eq in EQ. rewrite EQ in F. apply sco_of_none in F. unfold shape. now rewrite F.
  - (* ScoBye *) injection H as <- <-. left. unfold receive_sco_bye. destruct (sco_of order (source p) s) as [[h c]|] eqn:F.
    + destruct (sco_lookup order any_order _ _ _ _ C F) as (L & P). transitivity (shape x (close_sco h s)); [apply keeps_same, scos_tell_disconnection|]. destruct (list_eqb (source p) x) eqn:EQ.
      * apply list_eqb_eq in EQ. rewrite EQ in *. eapply close_mine; [|exact L]. now apply only_call.
      * eapply close_other; eauto. intros E. rewrite <- P, E, list_eqb_refl in EQ. discriminate.
    + destruct (list_eqb (source p) x) eqn:EQ; auto. apply list_eqb_eq in EQ. rewrite EQ in F. apply sco_of_none in F. unfold shape. now rewrite F.
  - (* SwitchRequest *) injection H as <- <-. apply Z. unfold receive_switch_request. destruct (acl_of (source p) s) as [[h c]|]; auto.
    destruct (N.testbit (acl_policy c) 0); auto. match goal with |- context [if ?b then _ else _] => destruct b end; reflexivity.
  - (* SwitchResponse *) injection H as <- <-. apply Z. unfold receive_switch_response. destruct (acl_of (source p) s) as [[h c]|]; auto. cbv zeta.
    destruct (st =? SUCCESS); match goal with |- context [if ?b then _ else _] => destruct b end; reflexivity.
Qed.
Lemma single_history : forall h s x, history order cfg h s -> single x s.
Proof.
  intros h s x H h1 c1 h2 c2 I1 I2 P1 P2. destruct (acl_of x s) as [[k c]|] eqn:F; [|now elim (acl_of_none x s h1 c1 F I1)].
  transitivity k; [|symmetry]; eapply (one_peer order cfg any_order); eassumption.
Qed.
Lemma scos_heard : forall now a s, scos (heard_from now a s) = scos s.
Proof. intros. unfold heard_from. now destruct (acl_of a s) as [[h c]|]. Qed.
Theorem step_shape : forall h s now o s' st out x k c, history order cfg h s -> step order cfg now s o = Ok (s', st, out) ->
  (List.length (calls x s) <= 1)%nat -> keeps_calls x o s -> acl_of x s' = Some (k, c) -> shape x s' = after x o s.
Proof.
  intros h s now o s' st out x k c H E LE KC F. pose proof (core_history order cfg any_order _ _ H) as C. pose proof (single_history _ _ x H) as U.
  assert (Q : forall y, shape x s' = y \/ parted x s' -> shape x s' = y) by (unfold parted; intros y [X|X]; [exact X|congruence]).
  destruct o as [cm|k1 pb bc d|k1 d|rssi p|]; cbn [step] in E; unbind E; injection E as <- <- <-; cbn [after]; apply Q.
  - eapply command_shape; eassumption.
  - left. apply keeps_same. unfold handle_acl in E0. destruct (negb _); [discriminate|]. destruct (lookup (acls s) k1); now injection E0 as <-.
  - left. apply keeps_same. unfold send_sco. now destruct (lookup (scos s) k1).
  - unfold receive in E0. destruct (for_me p s); [|injection E0 as <- <-; now left].
    assert (S : forall z, shape z (heard_from now (source p) s) = shape z s) by (intros z; apply keeps_same, scos_heard).
    assert (A : after_packet x p s = after_packet x p (heard_from now (source p) s)) by (unfold after_packet; now rewrite S). rewrite A.
    eapply dispatch_shape; [now apply core_heard| | |exact E0].
    + eapply single_fewer; [exact C|now apply core_heard|now apply fewer_heard|exact U].
    + rewrite <- length_shape, S, length_shape. exact LE.
  - apply (tick_shape x) in E0; auto.
Qed.
End WithOrder.
