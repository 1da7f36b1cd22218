(** Which part of the state each step of the LE controller can change. *)
From Verif Require Import Prelude Address Rpa Table LeTypes LeAdvertise LeLists LeScan LeInitiate LeHost LeTac.
Open Scope N_scope.

Definition ident (e : resolving_entry) := (peer_identity_type e, peer_identity_address e, peer_irk e, local_irk e).

Section WithController.
Variable aes : list N -> list N -> list N.
Variable rng : N -> N.
Variable cfg : config.

Lemma generate_for_ident : forall l a local r0 r1 r2 r3 l' r,
  generate_for aes l a local r0 r1 r2 r3 = (l', r) -> map ident l' = map ident l.
Proof.
  induction l as [|e l IH]; cbn [generate_for]; intros a local r0 r1 r2 r3 l' r H.
  - injection H as <- <-. reflexivity.
  - destruct (_ && _).
    + injection H as <- <-. destruct local; reflexivity.
    + destruct (generate_for aes l a local r0 r1 r2 r3) as [l2 r2'] eqn:E. injection H as <- <-.
      cbn [map]. now rewrite (IH _ _ _ _ _ _ _ _ E).
Qed.

Lemma resolve_loop_ident : forall l a l' r, resolve_loop aes a l = (l', r) -> map ident l' = map ident l.
Proof.
  induction l as [|e l IH]; cbn [resolve_loop]; intros a l' r H.
  - injection H as <- <-. reflexivity.
  - destruct (matches_irk _ _ _).
    + injection H as <- <-. reflexivity.
    + destruct (resolve_loop aes a l) as [l2 r2] eqn:E. injection H as <- <-.
      cbn [map]. now rewrite (IH _ _ _ E).
Qed.

Lemma resolve_private_ident : forall on l a l' r,
  resolve_private_address aes on l a = (l', r) -> map ident l' = map ident l.
Proof.
  unfold resolve_private_address. intros on l a l' r H. destruct (negb (is_rpa a)), (negb on);
    try (injection H as <- <-; reflexivity). exact (resolve_loop_ident _ _ _ _ H).
Qed.

Lemma generate_frame : forall a local s s' r, generate aes rng a local s = (s', r) ->
  exists l p, s' = with_rand_pos p (with_resolving l s) /\ map ident l = map ident (resolving s).
Proof.
  unfold generate. intros a local s s' r H. destruct (generate_for _ _ _ _ _ _ _ _) as [l r'] eqn:E.
  injection H as <- <-. exists l, (rand_pos s + 4). split; [reflexivity|].
  exact (generate_for_ident _ _ _ _ _ _ _ _ _ E).
Qed.

Lemma resolve_frame : forall a s s' r, resolve aes a s = (s', r) ->
  exists l, s' = with_resolving l s /\ map ident l = map ident (resolving s).
Proof.
  unfold resolve. intros a s s' r H. destruct (resolve_private_address _ _ _ _) as [l r'] eqn:E.
  injection H as <- <-. exists l. split; [reflexivity|]. exact (resolve_private_ident _ _ _ _ _ E).
Qed.

(** The updates made while preparing sets: their addresses, the resolving list *)
Lemma prepare_set_frame : forall e s s' r, prepare_set aes rng e s = (s', r) ->
  exists m l p, s' = with_sets m (with_rand_pos p (with_resolving l s)) /\ map ident l = map ident (resolving s).
Proof.
  unfold prepare_set. intros e s s' r H.
  assert (forall x, (s, x) = (s', r) -> exists m l p, s' = with_sets m (with_rand_pos p (with_resolving l s)) /\ map ident l = map ident (resolving s)) as SAME.
  { intros x [= <- <-]. exists (sets s), (resolving s), (rand_pos s). split; [destruct s; reflexivity|reflexivity]. }
  destruct (lookup _ _) as [a|]; [|now apply SAME in H].
  do 5 (destruct (_ : bool) in H at 1; [now apply SAME in H|]).
  destruct (generate aes rng _ true s) as [s1 r1] eqn:G1.
  destruct (generate_frame _ _ _ _ _ G1) as (l1 & p1 & -> & I1).
  destruct (choose_own _ _ _ _) as [addr|].
  - destruct (directed _).
    + destruct (generate aes rng _ false _) as [s2 r2] eqn:G2.
      destruct (generate_frame _ _ _ _ _ G2) as (l2 & p2 & -> & I2).
      injection H as <- <-. le_simpl. eexists _, l2, p2. split; [reflexivity|]. le_simpl_in I2. congruence.
    + injection H as <- <-. eexists _, l1, p1. split; [reflexivity|exact I1].
  - injection H as <- <-. exists (sets s), l1, p1. split; [destruct s; reflexivity|exact I1].
Qed.

Lemma prepare_sets_frame : forall l s s' r, prepare_sets aes rng l s = (s', r) ->
  exists m l p, s' = with_sets m (with_rand_pos p (with_resolving l s)) /\ map ident l = map ident (resolving s).
Proof.
  induction l as [|e l IH]; cbn [prepare_sets]; intros s s' r H.
  - injection H as <- <-. exists (sets s), (resolving s), (rand_pos s). split; [destruct s; reflexivity|reflexivity].
  - destruct (prepare_set aes rng e s) as [s1 r1] eqn:E.
    destruct (prepare_set_frame _ _ _ _ E) as (m1 & l1 & p1 & -> & I1).
    destruct r1 as [st|].
    + injection H as <- <-. eauto.
    + destruct (IH _ _ _ H) as (m2 & l2 & p2 & -> & I2). le_simpl_in I2.
      exists m2, l2, p2. split; [reflexivity|congruence].
Qed.

Lemma fold_frame : forall (A : Type) (f : le -> A -> le),
  (forall s e, exists m, f s e = with_sets m s) ->
  forall l s, exists m, fold_left f l s = with_sets m s.
Proof.
  intros A f F l. induction l as [|e l IH]; cbn [fold_left]; intros s.
  - exists (sets s). destruct s; reflexivity.
  - destruct (IH (f s e)) as [m ->]. destruct (F s e) as [m' ->]. exists m. reflexivity.
Qed.

Lemma start_sets_frame : forall now l s, exists m, fold_left (fun s e => start_set now e s) l s = with_sets m s.
Proof.
  intros now. apply fold_frame. intros s e. unfold start_set. destruct (lookup _ _).
  - eexists. reflexivity.
  - exists (sets s). destruct s; reflexivity.
Qed.

Lemma stop_sets_frame : forall l s, exists m, fold_left (fun s e => stop_set e s) l s = with_sets m s.
Proof.
  apply fold_frame. intros s e. unfold stop_set. destruct (lookup _ _).
  - eexists. reflexivity.
  - exists (sets s). destruct s; reflexivity.
Qed.

Lemma set_ext_enable_frame : forall now on l s s' st, set_ext_enable aes rng now on l s = Done s' st ->
  exists m l p b, s' = with_extended_used b (with_sets m (with_rand_pos p (with_resolving l s)))
    /\ map ident l = map ident (resolving s) /\ (b = extended_used s \/ (b = true /\ legacy_used s = false)).
Proof.
  unfold set_ext_enable, select_extended. intros now on l s s' st H.
  destruct (legacy_used s).
  { injection H as <- <-. exists (sets s), (resolving s), (rand_pos s), (extended_used s).
    split; [destruct s; reflexivity|auto]. }
  assert (forall x, Done (with_extended_used true s) x = Done s' st ->
    exists m l p b, s' = with_extended_used b (with_sets m (with_rand_pos p (with_resolving l s)))
    /\ map ident l = map ident (resolving s) /\ (b = extended_used s \/ (b = true /\ false = false))) as SAME.
  { intros x [= <- <-]. exists (sets s), (resolving s), (rand_pos s), true.
    split; [destruct s; reflexivity|auto]. }
  destruct (check_handles _ _ _); try discriminate; [|now apply SAME in H].
  destruct (negb on && is_empty l).
  { injection H as <- <-. exists (map (fun kv => (fst kv, disable_set (snd kv))) (sets s)), (resolving s), (rand_pos s), true.
    split; [destruct s; reflexivity|auto]. }
  destruct (is_empty l); [now apply SAME in H|].
  destruct (negb on).
  { injection H as <- <-. destruct (stop_sets_frame l (with_extended_used true s)) as [m ->].
    exists m, (resolving s), (rand_pos s), true. split; [destruct s; reflexivity|auto]. }
  destruct (prepare_sets aes rng l _) as [s1 r] eqn:E.
  destruct (prepare_sets_frame _ _ _ _ E) as (m1 & l1 & p1 & -> & I1). le_simpl_in I1.
  destruct r.
  { injection H as <- <-. exists m1, l1, p1, true. split; [reflexivity|auto]. }
  destruct (start_sets_frame now l (with_sets m1 (with_rand_pos p1 (with_resolving l1 (with_extended_used true s))))) as [m M].
  injection H as <- <-. rewrite M. exists m, l1, p1, true. split; [reflexivity|auto].
Qed.

Lemma handle_connection_frame : forall peer resolved own central i lat sup cs s s' h o,
  handle_connection peer resolved own central i lat sup cs s = Some (s', h, o) ->
  exists last ia, s' = with_init (with_init_address ia (init s))
    (with_conns ((h, LeConn peer own resolved central i lat sup) :: conns s) (with_last_handle last s))
    /\ Handles.get_unused_handle (conns s) Handles.kLeAclRangeStart Handles.kLeAclRangeEnd (last_handle s) = Some (h, last)
    /\ (ia = init_address (init s) \/ ia = empty_address).
Proof.
  unfold handle_connection. intros peer resolved own central i lat sup cs s s' h o H.
  destruct (Handles.get_unused_handle _ _ _ _) as [[h' last]|] eqn:E; [|discriminate].
  destruct (list_eqb (awt_addr own) (init_address _)); injection H as <- <- <-; le_simpl.
  - exists last, empty_address. split; [destruct s; reflexivity|auto].
  - exists last, (init_address (init s)). split; [destruct s as [? ? ? ? ? ? ? ? ? ? ? [] ? ? ? ? ? ? ? ?]; reflexivity|auto].
Qed.

Lemma set_connect_request_frame : forall h a i adv x y z s e,
  set_connect_request aes h a i adv x y z s = inr e -> exists l, e = with_resolving l s /\ map ident l = map ident (resolving s).
Proof.
  unfold set_connect_request. intros h a i adv x y z s e H.
  destruct (negb _) in H.
  { injection H as <-. exists (resolving s). split; [destruct s; reflexivity|reflexivity]. }
  destruct (resolve aes i s) as [s1 r] eqn:E. destruct (resolve_frame _ _ _ _ E) as (l & -> & I).
  destruct (negb _) in H; [|discriminate]. injection H as <-. exists l. auto.
Qed.

Lemma sets_connect_request_frame : forall m i adv x y z s s' o,
  sets_connect_request aes m i adv x y z s = Next s' o ->
  (exists l, s' = with_resolving l s /\ map ident l = map ident (resolving s) /\ o = [])
  \/ (exists l h a c last ia, s' = with_init (with_init_address ia (init s)) (with_conns c (with_last_handle last
         (with_sets (put (sets s) h (disable_set a)) (with_resolving l s))))
       /\ In (h, a) m /\ map ident l = map ident (resolving s)
       /\ (ia = init_address (init s) \/ ia = empty_address)).
Proof.
  induction m as [|[h a] m IH]; cbn [sets_connect_request]; intros i adv x y z s s' o H.
  - injection H as <- <-. left. exists (resolving s). split; [destruct s; reflexivity|auto].
  - destruct (set_connect_request aes h a i adv x y z s) as [e|e] eqn:E.
    + subst e. right. unfold set_connect_request in E. destruct (negb _) in E; [discriminate|].
      destruct (resolve aes i s) as [s1 r] eqn:R. destruct (resolve_frame _ _ _ _ R) as (l & -> & I).
      destruct (negb _) in E; [discriminate|]. injection E as E.
      destruct (handle_connection _ _ _ _ _ _ _ _ _) as [[[s2 c] o2]|] eqn:HC; [|discriminate].
      destruct (handle_connection_frame _ _ _ _ _ _ _ _ _ _ _ _ HC) as (last & ia & -> & _ & IA).
      injection E as <- <-. le_simpl. le_simpl_in IA.
      eexists l, h, a, _, last, ia. split; [reflexivity|]. split; [now left|auto].
    + destruct (set_connect_request_frame _ _ _ _ _ _ _ _ _ E) as (l & -> & I).
      destruct (IH _ _ _ _ _ _ _ _ H) as [(l2 & -> & I2 & ->)|(l2 & h2 & a2 & c & last & ia & -> & IN & I2 & IA)].
      * left. exists l2. split; [reflexivity|]. le_simpl_in I2. split; [congruence|reflexivity].
      * right. le_simpl. le_simpl_in I2. le_simpl_in IA. exists l2, h2, a2, c, last, ia. split; [reflexivity|].
        split; [now right|]. split; [congruence|exact IA].
Qed.

Lemma filter_duplicate_frame : forall p s s' b, filter_duplicate p s = (s', b) ->
  exists h, s' = with_scan (with_scan_history h (scan s)) s.
Proof.
  unfold filter_duplicate. intros p s s' b H.
  assert (s = with_scan (with_scan_history (scan_history (scan s)) (scan s)) s) as SAME
    by (destruct s as [? ? ? ? ? ? ? ? ? ? [] ? ? ? ? ? ? ? ? ?]; reflexivity).
  destruct (scan_dups _); [injection H as <- <-; now eexists; exact SAME| |];
    (destruct (existsb _ _); injection H as <- <-; [now eexists; exact SAME|now eexists]).
Qed.

Lemma send_scan_request_frame : forall now adv res b1 b2 b3 b4 x y s s' o,
  send_scan_request aes rng now adv res b1 b2 b3 b4 x y s = Some (s', o) ->
  exists pd l p, s' = with_scan (with_scan_pending pd (scan s)) (with_rand_pos p (with_resolving l s))
     /\ map ident l = map ident (resolving s).
Proof.
  unfold send_scan_request. intros now adv res b1 b2 b3 b4 x y s s' o H.
  destruct (_ || _) in H.
  - injection H as <- <-. exists (scan_pending (scan s)), (resolving s), (rand_pos s).
    split; [destruct s as [? ? ? ? ? ? ? ? ? ? [] ? ? ? ? ? ? ? ? ?]; reflexivity|reflexivity].
  - destruct (generate aes rng res true s) as [s1 r] eqn:G.
    destruct (generate_frame _ _ _ _ _ G) as (l & p & -> & I).
    destruct (scanning_address _ _); [|discriminate]. injection H as <- <-. le_simpl.
    eexists _, l, p. split; [reflexivity|exact I].
Qed.

(** What the scanner may change on reception *)
Definition scan_touched (s s' : le) : Prop :=
  exists pd h l p, s' = with_scan (with_scan_history h (with_scan_pending pd (scan s)))
                          (with_rand_pos p (with_resolving l s))
     /\ map ident l = map ident (resolving s).

Lemma scan_touched_refl : forall s, scan_touched s s.
Proof.
  intros s. exists (scan_pending (scan s)), (scan_history (scan s)), (resolving s), (rand_pos s).
  split; [destruct s as [? ? ? ? ? ? ? ? ? ? [] ? ? ? ? ? ? ? ? ?]; reflexivity|reflexivity].
Qed.

Lemma scan_touched_trans : forall a b c, scan_touched a b -> scan_touched b c -> scan_touched a c.
Proof.
  intros a b c (pd & h & l & p & -> & I) (pd2 & h2 & l2 & p2 & -> & I2). le_simpl. le_simpl_in I2.
  exists pd2, h2, l2, p2. split; [reflexivity|congruence].
Qed.

Lemma resolve_touched : forall a s s' r, resolve aes a s = (s', r) -> scan_touched s s'.
Proof.
  intros a s s' r H. destruct (resolve_frame _ _ _ _ H) as (l & -> & I).
  exists (scan_pending (scan s)), (scan_history (scan s)), l, (rand_pos s).
  split; [destruct s as [? ? ? ? ? ? ? ? ? ? [] ? ? ? ? ? ? ? ? ?]; reflexivity|exact I].
Qed.

Lemma filter_duplicate_touched : forall p s s' b, filter_duplicate p s = (s', b) -> scan_touched s s'.
Proof.
  intros p s s' b H. destruct (filter_duplicate_frame _ _ _ _ H) as (h & ->).
  exists (scan_pending (scan s)), h, (resolving s), (rand_pos s).
  split; [destruct s as [? ? ? ? ? ? ? ? ? ? [] ? ? ? ? ? ? ? ? ?]; reflexivity|reflexivity].
Qed.

Lemma send_scan_request_touched : forall now adv res b1 b2 b3 b4 x y s s' o,
  send_scan_request aes rng now adv res b1 b2 b3 b4 x y s = Some (s', o) -> scan_touched s s'.
Proof.
  intros now adv res b1 b2 b3 b4 x y s s' o H.
  destruct (send_scan_request_frame _ _ _ _ _ _ _ _ _ _ _ _ H) as (pd & l & p & -> & I).
  exists pd, (scan_history (scan s)), l, p.
  split; [destruct s as [? ? ? ? ? ? ? ? ? ? [] ? ? ? ? ? ? ? ? ?]; reflexivity|exact I].
Qed.

Lemma scan_legacy_touched : forall now adv tgt t d s s' o,
  scan_legacy_pdu aes rng now adv tgt t d s = Some (s', o) -> scan_touched s s'.
Proof.
  unfold scan_legacy_pdu. intros now adv tgt t d s s' o H.
  destruct (negb _) in H; [injection H as <- <-; apply scan_touched_refl|].
  destruct (resolve aes adv s) as [s1 r] eqn:R. apply resolve_touched in R.
  destruct (negb _) in H; [injection H as <- <-; exact R|].
  destruct (if match t with PDU_DIRECT => true | _ => false end then _ else _) as [b|]; [|injection H as <- <-; exact R].
  destruct (filter_duplicate _ _) as [s2 f] eqn:F. apply filter_duplicate_touched in F.
  destruct (send_scan_request _ _ _ _ _ _ _ _ _ _ _ _) as [[s3 o3]|] eqn:S; [|discriminate].
  apply send_scan_request_touched in S. injection H as <- <-.
  exact (scan_touched_trans _ _ _ R (scan_touched_trans _ _ _ F S)).
Qed.

Lemma scan_extended_touched : forall now adv tgt c sc dir sid pw pr se pi d s s' o,
  scan_extended_pdu aes rng cfg now adv tgt c sc dir sid pw pr se pi d s = Some (s', o) -> scan_touched s s'.
Proof.
  unfold scan_extended_pdu. intros now adv tgt c sc dir sid pw pr se pi d s s' o H.
  do 4 (destruct (_ : bool) in H at 1; [injection H as <- <-; apply scan_touched_refl|]).
  destruct (resolve aes adv s) as [s1 r] eqn:R. apply resolve_touched in R.
  destruct (negb _) in H; [injection H as <- <-; exact R|].
  destruct (if dir then _ else _) as [b|]; [|injection H as <- <-; exact R].
  destruct (filter_duplicate _ _) as [s2 f] eqn:F. apply filter_duplicate_touched in F.
  destruct (send_scan_request _ _ _ _ _ _ _ _ _ _ _ _) as [[s3 o3]|] eqn:S; [|discriminate].
  apply send_scan_request_touched in S. injection H as <- <-.
  exact (scan_touched_trans _ _ _ R (scan_touched_trans _ _ _ F S)).
Qed.

Lemma scan_response_touched : forall adv dst d s s' o,
  receive_scan_response aes adv dst d s = (s', o) -> scan_touched s s'.
Proof.
  unfold receive_scan_response. intros adv dst d s s' o H.
  destruct (negb _) in H; [injection H as <- <-; apply scan_touched_refl|].
  destruct (pending_find _ _) as [q|]; [|injection H as <- <-; apply scan_touched_refl].
  destruct (resolve aes adv s) as [s1 r] eqn:R. apply resolve_touched in R.
  destruct (filter_duplicate _ _) as [s2 f] eqn:F. apply filter_duplicate_touched in F.
  injection H as <- <-. eapply scan_touched_trans; [exact R|]. eapply scan_touched_trans; [|exact F].
  exists (filter (fun e => negb (awt_eqb (fst e) adv)) (scan_pending (scan s1))),
    (scan_history (scan s1)), (resolving s1), (rand_pos s1).
  split; [|reflexivity]. destruct s1 as [? ? ? ? ? ? ? ? ? ? [] ? ? ? ? ? ? ? ? ?]; reflexivity.
Qed.

(** What the initiator may change on reception of an advertising PDU *)
Definition init_touched (s s' : le) : Prop :=
  exists pd ia l p, s' = with_init (with_init_pending pd (with_init_address ia (init s)))
                          (with_rand_pos p (with_resolving l s))
     /\ map ident l = map ident (resolving s).

Lemma init_touched_refl : forall s, init_touched s s.
Proof.
  intros s. exists (init_pending (init s)), (init_address (init s)), (resolving s), (rand_pos s).
  split; [destruct s as [? ? ? ? ? ? ? ? ? ? ? [] ? ? ? ? ? ? ? ?]; reflexivity|reflexivity].
Qed.

Lemma connect_to_touched : forall adv tgt d s s' o,
  connect_to aes rng adv tgt d s = Some (s', o) -> init_touched s s'.
Proof.
  unfold connect_to. intros adv tgt d s s' o H.
  destruct (resolve aes adv s) as [s1 r] eqn:R. destruct (resolve_frame _ _ _ _ R) as (l & -> & I).
  assert (init_touched s (with_resolving l s)) as T.
  { exists (init_pending (init s)), (init_address (init s)), l, (rand_pos s).
    split; [destruct s as [? ? ? ? ? ? ? ? ? ? ? [] ? ? ? ? ? ? ? ?]; reflexivity|exact I]. }
  do 3 (destruct (_ : bool) in H at 1; [injection H as <- <-; exact T|]).
  destruct (generate aes rng r true _) as [s2 rpa] eqn:G.
  destruct (generate_frame _ _ _ _ _ G) as (l2 & p2 & -> & I2). le_simpl_in I2.
  destruct (initiating_address _ _) as [a|]; [|discriminate]. injection H as <- <-. le_simpl.
  eexists _, _, l2, p2. split; [reflexivity|congruence].
Qed.

Lemma connect_legacy_touched : forall adv tgt t s s' o,
  connect_legacy_pdu aes rng adv tgt t s = Some (s', o) -> init_touched s s'.
Proof.
  unfold connect_legacy_pdu. intros adv tgt t s s' o H.
  do 2 (destruct (_ : bool) in H at 1; [injection H as <- <-; apply init_touched_refl|]).
  exact (connect_to_touched _ _ _ _ _ _ H).
Qed.

Lemma connect_extended_touched : forall adv tgt c d s s' o,
  connect_extended_pdu aes rng adv tgt c d s = Some (s', o) -> init_touched s s'.
Proof.
  unfold connect_extended_pdu. intros adv tgt c d s s' o H.
  do 3 (destruct (_ : bool) in H at 1; [injection H as <- <-; apply init_touched_refl|]).
  exact (connect_to_touched _ _ _ _ _ _ H).
Qed.

End WithController.
