(** Proofs about the event masks of an LE controller: they decide nothing but which
    events the host hears of. *)
From Verif Require Import Prelude Address Rpa Table LeTypes LeAdvertise LeLists LeScan LeInitiate LeHost LeTac
  EventMaskSpec EventMaskLe EventMaskProofs  MaskViewSpec.
Open Scope N_scope.

(** The same controller with other masks *)
Definition wm (m : N * N * N) (s : le) : le :=
  let '(a, b, c) := m in with_event_mask a (with_event_mask_2 b (with_le_mask c s)).

Definition lift {X} (m : N * N * N) (r : le * X) : le * X := (wm m (fst r), snd r).

Ltac cases :=
  repeat (match goal with
          | |- context [match ?x with _ => _ end] =>
              lazymatch x with
              | context [match _ with _ => _ end] => fail
              | _ => destruct x
              end
          end; le_simpl; cbn [lift wm fst snd]; try reflexivity).
Ltac plain f :=
  intros; match goal with m : (N * N * N)%type |- _ => destruct m as [[? ?] ?] end;
  match goal with s : le |- _ => destruct s end;
  unfold f, lift, wm, select_legacy, select_extended; le_simpl; cbn [fst snd]; try reflexivity; cases.

Section WithController.
Variable aes : list N -> list N -> list N.
Variable rng : N -> N.
Variable cfg : config.

Lemma wm_generate m p l s : generate aes rng p l (wm m s) = lift m (generate aes rng p l s).
Proof. plain (@generate). Qed.
Lemma wm_resolve m p s : resolve aes p (wm m s) = lift m (resolve aes p s).
Proof. plain (@resolve). Qed.
Lemma wm_filter m p s : filter_duplicate p (wm m s) = lift m (filter_duplicate p s).
Proof. plain (@filter_duplicate). Qed.

Lemma wm_set_random_address m a s : set_random_address a (wm m s) = lift m (set_random_address a s).
Proof. plain set_random_address. Qed.
Lemma wm_set_adv_parameters m imin imax t o pk p mp pol s :
  set_adv_parameters imin imax t o pk p mp pol (wm m s) = lift m (set_adv_parameters imin imax t o pk p mp pol s).
Proof. plain set_adv_parameters. Qed.
Lemma wm_set_adv_data m d s : set_adv_data d (wm m s) = lift m (set_adv_data d s).
Proof. plain set_adv_data. Qed.
Lemma wm_set_scan_response_data m d s : set_scan_response_data d (wm m s) = lift m (set_scan_response_data d s).
Proof. plain set_scan_response_data. Qed.
Lemma wm_set_adv_enable m now on s : set_adv_enable aes rng now on (wm m s) = lift m (set_adv_enable aes rng now on s).
Proof. unfold set_adv_enable. plain (@generate). Qed.
Lemma wm_set_set_random_address m h a s : set_set_random_address h a (wm m s) = lift m (set_set_random_address h a s).
Proof. plain set_set_random_address. Qed.
Lemma wm_set_ext_parameters m h e s : set_ext_parameters cfg h e (wm m s) = lift m (set_ext_parameters cfg h e s).
Proof. plain set_ext_parameters. Qed.
Lemma wm_set_ext_data m h o d s : set_ext_data cfg h o d (wm m s) = lift m (set_ext_data cfg h o d s).
Proof. plain set_ext_data. Qed.
Lemma wm_set_ext_scan_response m h o d s :
  set_ext_scan_response cfg h o d (wm m s) = lift m (set_ext_scan_response cfg h o d s).
Proof. plain set_ext_scan_response. Qed.
Lemma wm_remove_set m h s : remove_set h (wm m s) = lift m (remove_set h s).
Proof. plain remove_set. Qed.
Lemma wm_clear_sets m s : clear_sets (wm m s) = lift m (clear_sets s).
Proof. plain clear_sets. Qed.
Lemma wm_set_periodic_parameters m h i j s :
  set_periodic_parameters h i j (wm m s) = lift m (set_periodic_parameters h i j s).
Proof. plain set_periodic_parameters. Qed.
Lemma wm_set_periodic_data m h o d s : set_periodic_data cfg h o d (wm m s) = lift m (set_periodic_data cfg h o d s).
Proof. plain set_periodic_data. Qed.
Lemma wm_set_periodic_enable m now on adi h s :
  set_periodic_enable cfg now on adi h (wm m s) = lift m (set_periodic_enable cfg now on adi h s).
Proof. plain set_periodic_enable. Qed.

Lemma wm_clear_accept_list m s : clear_accept_list (wm m s) = lift m (clear_accept_list s).
Proof. unfold clear_accept_list. plain accept_list_busy. Qed.
Lemma wm_add_accept_list m t a s : add_accept_list cfg t a (wm m s) = lift m (add_accept_list cfg t a s).
Proof. unfold add_accept_list. plain accept_list_busy. Qed.
Lemma wm_remove_accept_list m t a s : remove_accept_list t a (wm m s) = lift m (remove_accept_list t a s).
Proof. unfold remove_accept_list. plain accept_list_busy. Qed.
Lemma wm_add_resolving_list m k a p l s :
  add_resolving_list cfg k a p l (wm m s) = lift m (add_resolving_list cfg k a p l s).
Proof. unfold add_resolving_list. plain resolving_list_busy. Qed.
Lemma wm_remove_resolving_list m k a s : remove_resolving_list k a (wm m s) = lift m (remove_resolving_list k a s).
Proof. unfold remove_resolving_list. plain resolving_list_busy. Qed.
Lemma wm_clear_resolving_list m s : clear_resolving_list (wm m s) = lift m (clear_resolving_list s).
Proof. unfold clear_resolving_list. plain resolving_list_busy. Qed.
Lemma wm_set_address_resolution m on s : set_address_resolution on (wm m s) = lift m (set_address_resolution on s).
Proof. unfold set_address_resolution. plain resolving_list_busy. Qed.
Lemma wm_set_privacy_mode m k a s : set_privacy_mode k a (wm m s) = lift m (set_privacy_mode k a s).
Proof. unfold set_privacy_mode. plain resolving_list_busy. Qed.
Lemma wm_add_padv m k a i s : add_padv cfg k a i (wm m s) = lift m (add_padv cfg k a i s).
Proof. plain add_padv. Qed.
Lemma wm_remove_padv m k a i s : remove_padv k a i (wm m s) = lift m (remove_padv k a i s).
Proof. plain remove_padv. Qed.
Lemma wm_clear_padv m s : clear_padv (wm m s) = lift m (clear_padv s).
Proof. plain clear_padv. Qed.
Lemma wm_create_sync m u n d i k a t x s :
  create_sync cfg u n d i k a t x (wm m s) = lift m (create_sync cfg u n d i k a t x s).
Proof. plain create_sync. Qed.
Lemma wm_terminate_sync m h s : terminate_sync h (wm m s) = lift m (terminate_sync h s).
Proof. plain terminate_sync. Qed.

Lemma wm_set_scan_parameters m k i w o p s :
  set_scan_parameters k i w o p (wm m s) = lift m (set_scan_parameters k i w o p s).
Proof. plain set_scan_parameters. Qed.
Lemma wm_set_scan_enable m on d s : set_scan_enable on d (wm m s) = lift m (set_scan_enable on d s).
Proof. unfold set_scan_enable, scan_off. plain scan_on. Qed.
Lemma wm_set_ext_scan_parameters m o p y l s :
  set_ext_scan_parameters cfg o p y l (wm m s) = lift m (set_ext_scan_parameters cfg o p y l s).
Proof. plain set_ext_scan_parameters. Qed.
Lemma wm_set_ext_scan_enable m now on d du pe s :
  set_ext_scan_enable now on d du pe (wm m s) = lift m (set_ext_scan_enable now on d du pe s).
Proof. unfold set_ext_scan_enable, scan_off. plain scan_on. Qed.

Lemma wm_create_connection m pol peer o p s :
  create_connection aes rng pol peer o p (wm m s) = lift m (create_connection aes rng pol peer o p s).
Proof. unfold create_connection, check_own. plain (@generate). Qed.
Lemma wm_ext_create_connection m pol o peer y l s :
  ext_create_connection aes rng pol o peer y l (wm m s) = lift m (ext_create_connection aes rng pol o peer y l s).
Proof. unfold ext_create_connection, check_own. plain (@generate). Qed.

Lemma wm_prepare_set m e s : prepare_set aes rng e (wm m s) = lift m (prepare_set aes rng e s).
Proof. unfold prepare_set. plain (@generate). Qed.
Lemma wm_prepare_sets m : forall l s, prepare_sets aes rng l (wm m s) = lift m (prepare_sets aes rng l s).
Proof.
  induction l as [|e l IH]; intro s; [reflexivity|]. cbn [prepare_sets]. rewrite wm_prepare_set.
  destruct (prepare_set aes rng e s) as [s' [st|]]; cbn [lift fst snd]; [reflexivity|]. apply IH.
Qed.
Lemma wm_start_set m now e s : start_set now e (wm m s) = wm m (start_set now e s).
Proof. plain start_set. Qed.
Lemma wm_stop_set m e s : stop_set e (wm m s) = wm m (stop_set e s).
Proof. plain stop_set. Qed.
Lemma wm_fold m (f : le -> enabled_set -> le) : (forall s e, f (wm m s) e = wm m (f s e)) ->
  forall l s, fold_left f l (wm m s) = wm m (fold_left f l s).
Proof. intros H l. induction l as [|e l IH]; intro s; [reflexivity|]. cbn [fold_left]. rewrite H. apply IH. Qed.
Lemma wm_check_handles m s : forall l u, check_handles (wm m s) u l = check_handles s u l.
Proof.
  destruct m as [[x y] z]. induction l as [|e l IH]; intro u; [reflexivity|]. cbn [check_handles wm]. le_simpl.
  cbn [wm] in IH. now rewrite IH.
Qed.

Definition wm_outcome (m : N * N * N) (r : outcome) : outcome :=
  match r with Done s st => Done (wm m s) st | Undefined => Undefined end.
Lemma wm_select_extended m s : select_extended (wm m s) = option_map (wm m) (select_extended s).
Proof. plain select_extended. Qed.
Lemma wm_sets m s : sets (wm m s) = sets s.
Proof. destruct m as [[x y] z]. reflexivity. Qed.
Lemma wm_with_sets m v s : with_sets v (wm m s) = wm m (with_sets v s).
Proof. destruct m as [[x y] z]. reflexivity. Qed.
Lemma wm_set_ext_enable m now on l s :
  set_ext_enable aes rng now on l (wm m s) = wm_outcome m (set_ext_enable aes rng now on l s).
Proof.
  unfold set_ext_enable. rewrite wm_select_extended. destruct (select_extended s) as [s1|]; [|reflexivity].
  cbn [option_map]. rewrite wm_check_handles. destruct (check_handles s1 [] l); [|reflexivity|reflexivity].
  rewrite wm_sets, wm_with_sets. destruct (_ && _); [reflexivity|]. destruct (is_empty l); [reflexivity|].
  destruct (negb on).
  - rewrite wm_fold by (intros; apply wm_stop_set). reflexivity.
  - rewrite wm_prepare_sets. destruct (prepare_sets aes rng l s1) as [s2 [st|]]; cbn [lift fst snd]; [reflexivity|].
    rewrite wm_fold by (intros; apply wm_start_set). reflexivity.
Qed.

(** * The steps that tell the host something *)
Variables m n : N * N * N.
Definition base : le := new_le [].
Definition vw : output -> list view := view_of (wm m base) (wm n base).
Definition eqv (o o' : list output) : Prop := flat_map vw o = flat_map vw o'.
Definition sim (r q : le * list output) : Prop :=
  exists s o o', r = (wm m s, o) /\ q = (wm n s, o') /\ eqv o o'.
Definition simo (r q : option (le * list output)) : Prop :=
  match r, q with Some x, Some y => sim x y | None, None => True | _, _ => False end.

Lemma eqv_refl o : eqv o o.
Proof. reflexivity. Qed.
Lemma eqv_app a b c d : eqv a b -> eqv c d -> eqv (a ++ c) (b ++ d).
Proof. unfold eqv. intros H K. now rewrite !flat_map_app, H, K. Qed.

Definition bit (k : N) : bool := passes (wm m base) (62, Some k).
Definition bit' (k : N) : bool := passes (wm n base) (62, Some k).
Lemma unmasked_m k s : le_event_unmasked (wm m s) k = passes (wm m base) (62, Some k).
Proof. clear. destruct m as [[x y] z]. reflexivity. Qed.
Lemma unmasked_n k s : le_event_unmasked (wm n s) k = passes (wm n base) (62, Some k).
Proof. clear. destruct n as [[x y] z]. reflexivity. Qed.

(** An event sent when its bit is set *)
Lemma eqv_map {A} (f : A -> event) (l : list A) sub g :
  (forall x, code_of (f x) = (62, Some sub)) -> sub <> 1 -> sub <> 10 ->
  eqv (if g && passes (wm m base) (62, Some sub) then map (fun x => Notified (f x)) l else [])
      (if g && passes (wm n base) (62, Some sub) then map (fun x => Notified (f x)) l else []).
Proof.
  clear aes rng cfg. intros C N1 N10. destruct g; [|reflexivity]. cbn [andb]. unfold eqv.
  assert (Q : passes (wm m base) (62, Some sub) && passes (wm n base) (62, Some sub) = false ->
    flat_map vw (map (fun x => Notified (f x)) l) = []).
  { intro E. induction l as [|x l IH]; [reflexivity|]. cbn [map flat_map]. rewrite IH, app_nil_r.
    specialize (C x). unfold vw, view_of, both_hear. destruct (f x); cbn [code_of] in *; try congruence;
    try (injection C as <-; rewrite E; reflexivity); try discriminate; exfalso; congruence. }
  destruct (passes (wm m base) (62, Some sub)), (passes (wm n base) (62, Some sub)); cbn [andb] in Q;
    rewrite ?Q by reflexivity; reflexivity.
Qed.
Lemma eqv_one e sub g : code_of e = (62, Some sub) -> sub <> 1 -> sub <> 10 ->
  eqv (if g && passes (wm m base) (62, Some sub) then [Notified e] else [])
      (if g && passes (wm n base) (62, Some sub) then [Notified e] else []).
Proof. intros C N1 N10. exact (eqv_map (fun _ : unit => e) [tt] sub g (fun _ => C) N1 N10). Qed.
Lemma eqv_one' e sub : code_of e = (62, Some sub) -> sub <> 1 -> sub <> 10 ->
  eqv (if passes (wm m base) (62, Some sub) then [Notified e] else [])
      (if passes (wm n base) (62, Some sub) then [Notified e] else []).
Proof. intros C N1 N10. exact (eqv_one e sub true C N1 N10). Qed.

(** A connection complete event, enhanced or not *)
Lemma eqv_attempt g st h c p p' l1 l2 i la v :
  eqv (if g && passes (wm m base) (62, Some 10) then [Notified (EvEnhancedConnectionComplete st h c p l1 l2 i la v)]
       else if g && passes (wm m base) (62, Some 1) then [Notified (EvConnectionComplete st h c p' i la v)] else [])
      (if g && passes (wm n base) (62, Some 10) then [Notified (EvEnhancedConnectionComplete st h c p l1 l2 i la v)]
       else if g && passes (wm n base) (62, Some 1) then [Notified (EvConnectionComplete st h c p' i la v)] else []).
Proof.
  clear aes rng cfg. unfold eqv, vw, view_of. destruct g; [|reflexivity]. cbn [andb].
  destruct (passes (wm m base) (62, Some 10)), (passes (wm n base) (62, Some 10)),
    (passes (wm m base) (62, Some 1)), (passes (wm n base) (62, Some 1)); reflexivity.
Qed.
Lemma eqv_plain st h c p i la v :
  eqv (if passes (wm m base) (62, Some 1) then [Notified (EvConnectionComplete st h c p i la v)] else [])
      (if passes (wm n base) (62, Some 1) then [Notified (EvConnectionComplete st h c p i la v)] else []).
Proof.
  clear aes rng cfg. unfold eqv, vw, view_of.
  destruct (passes (wm m base) (62, Some 1)), (passes (wm n base) (62, Some 1)); reflexivity.
Qed.

Lemma sim_same s o : sim (wm m s, o) (wm n s, o).
Proof. exists s, o, o. repeat split. Qed.
Lemma sim_eqv s o o' : eqv o o' -> sim (wm m s, o) (wm n s, o').
Proof. intro H. exists s, o, o'. repeat split. exact H. Qed.

(** ** Advertising *)
Lemma sim_legacy_timeout now s : sim (legacy_timeout now (wm m s)) (legacy_timeout now (wm n s)).
Proof.
  unfold legacy_timeout. rewrite unmasked_m, unmasked_n.
  replace (legacy (wm m s)) with (legacy s) by (destruct m as [[? ?] ?]; reflexivity).
  replace (legacy (wm n s)) with (legacy s) by (destruct n as [[? ?] ?]; reflexivity).
  destruct (l_timeout (legacy s)); [|apply sim_same]. destruct (_ && _); [|apply sim_same].
  eexists (with_legacy _ s), _, _. split; [|split].
  - destruct m as [[? ?] ?]. reflexivity.
  - destruct n as [[? ?] ?]. reflexivity.
  - apply eqv_plain.
Qed.
Lemma wm_legacy_advertise k now s : legacy_advertise now (wm k s) = lift k (legacy_advertise now s).
Proof. plain legacy_advertise. Qed.

Definition simset (r q : adv_set * list output) : Prop := fst r = fst q /\ eqv (snd r) (snd q).
Lemma sim_set_timeout s now a : simset (set_timeout (wm m s) now a) (set_timeout (wm n s) now a).
Proof.
  unfold set_timeout. rewrite !unmasked_m, !unmasked_n. destruct (timeout a); [|split; reflexivity].
  destruct (_ && _); [|split; reflexivity]. split; [reflexivity|]. cbn [snd].
  apply eqv_app; [apply eqv_attempt|]. apply eqv_one'; [reflexivity|lia|lia].
Qed.
Lemma sim_set_limit s a : simset (set_limit (wm m s) a) (set_limit (wm n s) a).
Proof.
  unfold set_limit. rewrite !unmasked_m, !unmasked_n. destruct (_ && _); [|split; reflexivity].
  split; [reflexivity|]. cbn [snd]. apply eqv_one'; [reflexivity|lia|lia].
Qed.
Definition simseto {A} (r q : option (A * list output)) : Prop :=
  match r, q with Some x, Some y => fst x = fst y /\ eqv (snd x) (snd y) | None, None => True | _, _ => False end.
Lemma sim_advertise_set s now a : simseto (advertise_set (wm m s) now a) (advertise_set (wm n s) now a).
Proof.
  unfold advertise_set. pose proof (sim_set_timeout s now a) as [H1 H2].
  destruct (set_timeout (wm m s) now a) as [a1 o1], (set_timeout (wm n s) now a) as [b1 p1].
  cbn [fst snd] in H1, H2. subst b1. pose proof (sim_set_limit s a1) as [H3 H4].
  destruct (set_limit (wm m s) a1) as [a2 o2], (set_limit (wm n s) a1) as [b2 p2].
  cbn [fst snd] in H3, H4. subst b2. destruct (set_advertise now a2) as [[a3 o3]|]; [|exact I].
  destruct (set_periodic now a3) as [a4 o4]. split; [reflexivity|]. cbn [snd].
  repeat apply eqv_app; trivial; apply eqv_refl.
Qed.
Lemma sim_advertise_sets s now : forall t,
  simseto (advertise_sets (wm m s) now t) (advertise_sets (wm n s) now t).
Proof.
  induction t as [|[h a] t IH]; [split; reflexivity|]. cbn [advertise_sets].
  pose proof (sim_advertise_set s now a) as H. unfold simseto in H, IH.
  destruct (advertise_set (wm m s) now a) as [[a1 o1]|], (advertise_set (wm n s) now a) as [[b1 p1]|];
    try contradiction; [|exact I]. cbn [fst snd] in H. destruct H as [-> H].
  destruct (advertise_sets (wm m s) now t) as [[a2 o2]|], (advertise_sets (wm n s) now t) as [[b2 p2]|];
    try contradiction; [|exact I]. cbn [fst snd] in IH. destruct IH as [-> IH].
  split; [reflexivity|]. cbn [snd]. now apply eqv_app.
Qed.
Lemma sim_le_advertising now s : simo (le_advertising now (wm m s)) (le_advertising now (wm n s)).
Proof.
  unfold le_advertising. destruct (sim_legacy_timeout now s) as (s1 & o1 & p1 & -> & -> & E1).
  rewrite !wm_legacy_advertise. destruct (legacy_advertise now s1) as [s2 o2]. cbn [lift fst snd].
  rewrite !wm_sets. pose proof (sim_advertise_sets s2 now (sets s2)) as H. unfold simseto in H.
  destruct (advertise_sets (wm m s2) now (sets s2)) as [[a2 o3]|],
    (advertise_sets (wm n s2) now (sets s2)) as [[b2 p3]|]; try contradiction; [|exact I].
  cbn [fst snd] in H. destruct H as [-> H]. rewrite !wm_with_sets. apply sim_eqv.
  apply eqv_app; [exact E1|]. apply eqv_app; [apply eqv_refl|exact H].
Qed.

(** ** Scanning *)
Lemma wm_scan_filter_ok k s a : scan_filter_ok (wm k s) a = scan_filter_ok s a.
Proof. destruct k as [[? ?] ?]. reflexivity. Qed.
Lemma wm_directed_ok k s t a : directed_ok aes (wm k s) t a = directed_ok aes s t a.
Proof. destruct k as [[? ?] ?]. reflexivity. Qed.
Lemma wm_scan k s : scan (wm k s) = scan s.
Proof. destruct k as [[? ?] ?]. reflexivity. Qed.
Lemma wm_with_scan k v s : with_scan v (wm k s) = wm k (with_scan v s).
Proof. destruct k as [[? ?] ?]. reflexivity. Qed.
Lemma wm_legacy_used k s : legacy_used (wm k s) = legacy_used s.
Proof. destruct k as [[? ?] ?]. reflexivity. Qed.
Lemma wm_extended_used k s : extended_used (wm k s) = extended_used s.
Proof. destruct k as [[? ?] ?]. reflexivity. Qed.
Lemma wm_scanning_address k s r : scanning_address (wm k s) r = scanning_address s r.
Proof. destruct k as [[? ?] ?]. reflexivity. Qed.
Lemma wm_send_scan_request k now adv res sc fr co ex pr se s :
  send_scan_request aes rng now adv res sc fr co ex pr se (wm k s)
  = option_map (lift k) (send_scan_request aes rng now adv res sc fr co ex pr se s).
Proof.
  unfold send_scan_request, active_scanning. rewrite wm_scan. destruct (_ || _ || _ || _); [reflexivity|].
  rewrite wm_generate. destruct (generate aes rng res true s) as [s1 rpa]. cbn [lift fst snd].
  rewrite wm_scanning_address. destruct (scanning_address s1 rpa); [|reflexivity].
  rewrite wm_scan, wm_with_scan. reflexivity.
Qed.

Lemma simo_same s o : simo (Some (wm m s, o)) (Some (wm n s, o)).
Proof. apply sim_same. Qed.

Lemma sim_scan_legacy_pdu now adv target t data s :
  simo (scan_legacy_pdu aes rng now adv target t data (wm m s)) (scan_legacy_pdu aes rng now adv target t data (wm n s)).
Proof.
  unfold scan_legacy_pdu. rewrite !wm_scan. destruct (negb _); [apply simo_same|].
  rewrite !wm_resolve. destruct (resolve aes adv s) as [s1 r]. cbn [lift fst snd].
  rewrite !wm_scan_filter_ok, !wm_directed_ok. destruct (negb _); [apply simo_same|].
  destruct (match t with PDU_DIRECT => true | _ => false end);
    (destruct (directed_ok aes s1 target r) as [od|] || idtac).
  all: try (apply simo_same).
  all: rewrite !wm_filter; destruct (filter_duplicate (AirLegacy adv target t data) s1) as [s2 fresh];
    cbn [lift fst snd]; rewrite !wm_send_scan_request, !wm_legacy_used, !wm_extended_used;
    destruct (send_scan_request aes rng now adv r _ fresh _ false 1 0 s2) as [[s3 o]|]; [|exact I];
    cbn [option_map lift fst snd]; rewrite !unmasked_m, !unmasked_n; apply sim_eqv;
    repeat apply eqv_app; try apply eqv_refl; apply eqv_one; (reflexivity || lia).
Qed.

Lemma sim_scan_extended_pdu now adv target co sc di si po pr se pi data s :
  simo (scan_extended_pdu aes rng cfg now adv target co sc di si po pr se pi data (wm m s))
       (scan_extended_pdu aes rng cfg now adv target co sc di si po pr se pi data (wm n s)).
Proof.
  unfold scan_extended_pdu. rewrite !wm_scan, !wm_extended_used. do 4 (destruct (_ : bool); [apply simo_same|]).
  rewrite !wm_resolve. destruct (resolve aes adv s) as [s1 r]. cbn [lift fst snd].
  rewrite !wm_scan_filter_ok, !wm_directed_ok. destruct (negb _); [apply simo_same|].
  destruct (if di then directed_ok aes s1 target r else Some false) as [od|]; [|apply simo_same].
  rewrite !wm_filter. destruct (filter_duplicate _ s1) as [s2 fresh].
  cbn [lift fst snd]. rewrite !wm_send_scan_request.
  destruct (send_scan_request aes rng now adv r _ fresh _ true pr se s2) as [[s3 o]|]; [|exact I].
  cbn [option_map lift fst snd]. rewrite !unmasked_m, !unmasked_n. apply sim_eqv.
  apply eqv_app; [|apply eqv_refl].
  apply (eqv_map (fun f => EvExtendedReport co sc di false false (fst f) r si (snd f))); [reflexivity|lia|lia].
Qed.

Lemma flat_map_map {A B C} (h : A -> bool) (f : B -> C) (g : A -> B -> C) (l : list A) (d : list B) :
  flat_map (fun x => if h x then map (g x) d else []) l
  = map (fun p => g (fst p) (snd p)) (flat_map (fun x => if h x then map (pair x) d else []) l).
Proof.
  clear. induction l as [|x l IH]; [reflexivity|]. cbn [flat_map]. rewrite map_app, <- IH. f_equal.
  destruct (h x); [|reflexivity]. rewrite map_map. reflexivity.
Qed.

Lemma sim_receive_periodic now adv si po pi data s :
  sim (receive_periodic aes now adv si po pi data (wm m s)) (receive_periodic aes now adv si po pi data (wm n s)).
Proof.
  unfold receive_periodic. rewrite !wm_scan, !wm_extended_used. do 2 (destruct (negb _); [apply sim_same|]).
  rewrite !wm_resolve. destruct (resolve aes adv s) as [s1 r]. cbn [lift fst snd].
  replace (syncing (wm m s1)) with (syncing s1) by (destruct m as [[? ?] ?]; reflexivity).
  replace (syncing (wm n s1)) with (syncing s1) by (destruct n as [[? ?] ?]; reflexivity).
  replace (padv (wm m s1)) with (padv s1) by (destruct m as [[? ?] ?]; reflexivity).
  replace (padv (wm n s1)) with (padv s1) by (destruct n as [[? ?] ?]; reflexivity).
  replace (synced (wm m s1)) with (synced s1) by (destruct m as [[? ?] ?]; reflexivity).
  replace (synced (wm n s1)) with (synced s1) by (destruct n as [[? ?] ?]; reflexivity).
  rewrite !unmasked_m, !unmasked_n. cbv zeta.
  destruct (match syncing s1 with None => None | Some y => _ end) as [y|].
  - eexists (with_syncing None (with_synced _ s1)), _, _. split; [|split].
    + destruct m as [[? ?] ?]. reflexivity.
    + destruct n as [[? ?] ?]. reflexivity.
    + apply eqv_one'; [reflexivity|lia|lia].
  - eexists (with_synced _ s1), _, _. split; [|split].
    + destruct m as [[? ?] ?]. reflexivity.
    + destruct n as [[? ?] ?]. reflexivity.
    + rewrite (flat_map_map _ (fun f : bool * list N => Notified (EvPeriodicReport 0 (fst f) (snd f)))
                (fun kv f => Notified (EvPeriodicReport (fst kv) (fst f) (snd f)))).
      exact (eqv_map (fun p => EvPeriodicReport (fst (fst p)) (fst (snd p)) (snd (snd p))) _ 15 true
               (fun _ => eq_refl) ltac:(lia) ltac:(lia)).
Qed.

Lemma wm_receive_scan k sc adv s : receive_scan aes sc adv (wm k s) = lift k (receive_scan aes sc adv s).
Proof.
  unfold receive_scan. rewrite wm_resolve. destruct (resolve aes sc s) as [s1 r]. cbn [lift fst snd].
  destruct k as [[? ?] ?]. reflexivity.
Qed.

Lemma sim_receive_scan_response adv dst data s :
  sim (receive_scan_response aes adv dst data (wm m s)) (receive_scan_response aes adv dst data (wm n s)).
Proof.
  unfold receive_scan_response. rewrite !wm_scan. destruct (negb _); [apply sim_same|].
  destruct (pending_find adv _) as [q|]; [|apply sim_same].
  rewrite !wm_resolve. destruct (resolve aes adv s) as [s1 r]. cbn [lift fst snd].
  rewrite !wm_scan, !wm_with_scan, !wm_filter. destruct (filter_duplicate _ _) as [s2 fresh]. cbn [lift fst snd].
  rewrite !wm_legacy_used, !wm_extended_used, !unmasked_m, !unmasked_n. apply sim_eqv.
  apply eqv_app; [apply eqv_one; [reflexivity|lia|lia]|].
  apply (eqv_map (fun f => EvExtendedReport (sr_connectable q) true false true (negb (sr_extended q)) (fst f) r 255 (snd f)));
    [reflexivity|lia|lia].
Qed.

Lemma wm_scan_off k s : scan_off (wm k s) = wm k (scan_off s).
Proof. destruct k as [[? ?] ?]. reflexivity. Qed.

Lemma sim_le_scanning now s : sim (le_scanning now (wm m s)) (le_scanning now (wm n s)).
Proof.
  unfold le_scanning. rewrite !wm_scan. destruct (negb _); [apply sim_same|]. cbv zeta.
  destruct (_ && negb (is_some (scan_period_timeout (scan s)))).
  - rewrite !wm_scan_off, !wm_scan, !wm_with_scan, !unmasked_m, !unmasked_n. apply sim_eqv.
    apply eqv_one'; [reflexivity|lia|lia].
  - rewrite !wm_scan, !wm_with_scan. apply sim_same.
Qed.

Lemma sim_tick now s : forall s' st o, tick now (wm m s) = Ok s' st o ->
  exists s1 o', s' = wm m s1 /\ tick now (wm n s) = Ok (wm n s1) st o' /\ eqv o o'.
Proof.
  unfold tick. pose proof (sim_le_advertising now s) as H. unfold simo in H. intros s' st o E.
  destruct (le_advertising now (wm m s)) as [x|], (le_advertising now (wm n s)) as [y|]; try contradiction; [|discriminate].
  destruct H as (s1 & o1 & p1 & -> & -> & E1).
  destruct (sim_le_scanning now s1) as (s2 & o2 & p2 & A & B & E2). rewrite A in E. rewrite B.
  injection E as <- <- <-. exists s2, (p1 ++ p2). repeat split. now apply eqv_app.
Qed.

(** ** Connections *)
Lemma wm_init k s : init (wm k s) = init s.
Proof. destruct k as [[? ?] ?]. reflexivity. Qed.
Lemma wm_with_init k v s : with_init v (wm k s) = wm k (with_init v s).
Proof. destruct k as [[? ?] ?]. reflexivity. Qed.
Lemma wm_initiator_filter_ok k s a : initiator_filter_ok (wm k s) a = initiator_filter_ok s a.
Proof. destruct k as [[? ?] ?]. reflexivity. Qed.
Lemma wm_validate_target k s a b : validate_target aes (wm k s) a b = validate_target aes s a b.
Proof. destruct k as [[? ?] ?]. reflexivity. Qed.
Lemma wm_initiating_address k s r : initiating_address (wm k s) r = initiating_address s r.
Proof. destruct k as [[? ?] ?]. reflexivity. Qed.

Lemma wm_connect_to k adv target d s :
  connect_to aes rng adv target d (wm k s) = option_map (lift k) (connect_to aes rng adv target d s).
Proof.
  unfold connect_to. rewrite wm_resolve. destruct (resolve aes adv s) as [s1 r]. cbn [lift fst snd].
  rewrite wm_initiator_filter_ok, wm_validate_target, wm_init. destruct (negb _); [reflexivity|].
  destruct (_ && negb (validate_target aes s1 target r)); [reflexivity|]. destruct (_ && uses_rpa _); [reflexivity|].
  rewrite wm_generate. destruct (generate aes rng r true s1) as [s2 rpa]. cbn [lift fst snd].
  rewrite wm_initiating_address. destruct (initiating_address s2 rpa); [|reflexivity].
  rewrite wm_init, wm_with_init. reflexivity.
Qed.
Lemma wm_connect_legacy_pdu k adv target t s :
  connect_legacy_pdu aes rng adv target t (wm k s) = option_map (lift k) (connect_legacy_pdu aes rng adv target t s).
Proof.
  unfold connect_legacy_pdu. rewrite wm_init, wm_connect_to. destruct (negb _); [reflexivity|].
  destruct (_ || _); reflexivity.
Qed.
Lemma wm_connect_extended_pdu k adv target c d s :
  connect_extended_pdu aes rng adv target c d (wm k s)
  = option_map (lift k) (connect_extended_pdu aes rng adv target c d s).
Proof.
  unfold connect_extended_pdu. rewrite wm_init, wm_connect_to, wm_extended_used. destruct (negb _); [reflexivity|].
  destruct (negb _); [reflexivity|]. destruct (_ || _); reflexivity.
Qed.

Definition sime (r q : effect) : Prop :=
  match r, q with
  | Next s o, Next t o' => sim (s, o) (t, o')
  | Aborts, Aborts => True
  | Hangs, Hangs => True
  | _, _ => False
  end.
Lemma sim_then_also r q f : simo r q -> (forall k s, f (wm k s) = option_map (lift k) (f s)) ->
  sime (then_also r f) (then_also q f).
Proof.
  intros H F. unfold then_also. unfold simo in H. destruct r as [r|], q as [q|]; try contradiction; [|exact I].
  destruct H as (s & o & p & -> & -> & E). rewrite !F. destruct (f s) as [[s1 o1]|]; [|exact I].
  cbn [option_map lift fst snd]. apply sim_eqv. apply eqv_app; [exact E|apply eqv_refl].
Qed.

Definition simc (r q : option (le * N * list output)) : Prop :=
  match r, q with
  | Some (s, h, o), Some (t, h', o') => h = h' /\ sim (s, o) (t, o')
  | None, None => True
  | _, _ => False
  end.
Lemma sim_handle_connection peer res own c i l v ch s :
  simc (handle_connection peer res own c i l v ch (wm m s)) (handle_connection peer res own c i l v ch (wm n s)).
Proof.
  unfold handle_connection.
  replace (conns (wm m s)) with (conns s) by (destruct m as [[? ?] ?]; reflexivity).
  replace (conns (wm n s)) with (conns s) by (destruct n as [[? ?] ?]; reflexivity).
  replace (last_handle (wm m s)) with (last_handle s) by (destruct m as [[? ?] ?]; reflexivity).
  replace (last_handle (wm n s)) with (last_handle s) by (destruct n as [[? ?] ?]; reflexivity).
  destruct (Handles.get_unused_handle _ _ _ _) as [[h la]|]; [|exact I]. cbv zeta.
  replace (with_conns ((h, LeConn peer own res c i l v) :: conns s) (with_last_handle la (wm m s)))
    with (wm m (with_conns ((h, LeConn peer own res c i l v) :: conns s) (with_last_handle la s)))
    by (destruct m as [[? ?] ?]; reflexivity).
  replace (with_conns ((h, LeConn peer own res c i l v) :: conns s) (with_last_handle la (wm n s)))
    with (wm n (with_conns ((h, LeConn peer own res c i l v) :: conns s) (with_last_handle la s)))
    by (destruct n as [[? ?] ?]; reflexivity).
  set (s1 := with_conns _ _).
  replace (public_address (wm m s1)) with (public_address s1) by (destruct m as [[? ?] ?]; reflexivity).
  replace (public_address (wm n s1)) with (public_address s1) by (destruct n as [[? ?] ?]; reflexivity).
  replace (random_address (wm m s1)) with (random_address s1) by (destruct m as [[? ?] ?]; reflexivity).
  replace (random_address (wm n s1)) with (random_address s1) by (destruct n as [[? ?] ?]; reflexivity).
  rewrite !unmasked_m, !unmasked_n, !wm_init, !wm_with_init. split; [reflexivity|].
  destruct (list_eqb (awt_addr own) (init_address (init s1))); apply sim_eqv; apply eqv_app.
  all: try (apply (eqv_attempt true)).
  all: apply eqv_one; [reflexivity|lia|lia].
Qed.

Definition simr (r q : effect + le) : Prop :=
  match r, q with
  | inl a, inl b => sime a b
  | inr s, inr t => exists s0, s = wm m s0 /\ t = wm n s0
  | _, _ => False
  end.
Lemma wm_legacy k s : legacy (wm k s) = legacy s.
Proof. destruct k as [[? ?] ?]. reflexivity. Qed.
Lemma wm_with_legacy k v s : with_legacy v (wm k s) = wm k (with_legacy v s).
Proof. destruct k as [[? ?] ?]. reflexivity. Qed.
Lemma wm_accept_contains k s a : accept_contains (wm k s) a = accept_contains s a.
Proof. destruct k as [[? ?] ?]. reflexivity. Qed.

Lemma sim_legacy_connect_request ini adv i l v s :
  simr (legacy_connect_request aes ini adv i l v (wm m s)) (legacy_connect_request aes ini adv i l v (wm n s)).
Proof.
  unfold legacy_connect_request. rewrite !wm_legacy. destruct (negb _); [exists s; split; reflexivity|].
  rewrite !wm_resolve. destruct (resolve aes ini s) as [s1 r]. cbn [lift fst snd]. rewrite !wm_accept_contains.
  destruct (negb _); [exists s1; split; reflexivity|].
  pose proof (sim_handle_connection ini (resolved_or_none r ini) adv false i l v false s1) as H. unfold simc in H.
  destruct (handle_connection _ _ _ _ _ _ _ _ (wm m s1)) as [[[s2 h] o]|],
    (handle_connection _ _ _ _ _ _ _ _ (wm n s1)) as [[[t2 h'] o']|]; try contradiction; [|exact I].
  destruct H as (-> & s3 & o1 & o2 & A & B & E). injection A as -> ->. injection B as -> ->.
  cbn [simr sime]. rewrite !wm_legacy, !wm_with_legacy. apply sim_eqv. apply eqv_app; [exact E|apply eqv_refl].
Qed.
Lemma sim_set_connect_request h a ini adv i l v s :
  simr (set_connect_request aes h a ini adv i l v (wm m s)) (set_connect_request aes h a ini adv i l v (wm n s)).
Proof.
  unfold set_connect_request. destruct (negb _); [exists s; split; reflexivity|].
  rewrite !wm_resolve. destruct (resolve aes ini s) as [s1 r]. cbn [lift fst snd]. rewrite !wm_accept_contains.
  destruct (negb _); [exists s1; split; reflexivity|]. rewrite !wm_sets, !wm_with_sets.
  set (s2 := with_sets _ s1).
  pose proof (sim_handle_connection ini (resolved_or_none r ini) adv false i l v false s2) as H. unfold simc in H.
  destruct (handle_connection _ _ _ _ _ _ _ _ (wm m s2)) as [[[s3 h1] o]|],
    (handle_connection _ _ _ _ _ _ _ _ (wm n s2)) as [[[t3 h'] o']|]; try contradiction; [|exact I].
  destruct H as (-> & s4 & o1 & o2 & A & B & E). injection A as -> ->. injection B as -> ->.
  cbn [simr sime]. rewrite unmasked_m, unmasked_n. apply sim_eqv. apply eqv_app; [exact E|].
  apply eqv_app; [apply eqv_refl|]. apply eqv_one'; [reflexivity|lia|lia].
Qed.
Lemma sim_sets_connect_request ini adv i l v : forall t s,
  sime (sets_connect_request aes t ini adv i l v (wm m s)) (sets_connect_request aes t ini adv i l v (wm n s)).
Proof.
  induction t as [|[h a] t IH]; intro s; [apply sim_same|]. cbn [sets_connect_request].
  pose proof (sim_set_connect_request h a ini adv i l v s) as H. unfold simr in H.
  destruct (set_connect_request aes h a ini adv i l v (wm m s)), (set_connect_request aes h a ini adv i l v (wm n s));
    try contradiction; [exact H|]. destruct H as (s0 & -> & ->). apply IH.
Qed.
Lemma sim_receive_connect ini adv i l v s :
  sime (receive_connect aes ini adv i l v (wm m s)) (receive_connect aes ini adv i l v (wm n s)).
Proof.
  unfold receive_connect. pose proof (sim_legacy_connect_request ini adv i l v s) as H. unfold simr in H.
  destruct (legacy_connect_request aes ini adv i l v (wm m s)), (legacy_connect_request aes ini adv i l v (wm n s));
    try contradiction; [exact H|]. destruct H as (s0 & -> & ->). rewrite !wm_sets. apply sim_sets_connect_request.
Qed.

Lemma wm_resolving_on k s : resolving_on (wm k s) = resolving_on s.
Proof. destruct k as [[? ?] ?]. reflexivity. Qed.
Lemma wm_resolving k s : resolving (wm k s) = resolving s.
Proof. destruct k as [[? ?] ?]. reflexivity. Qed.
Lemma wm_with_resolving k v s : with_resolving v (wm k s) = wm k (with_resolving v s).
Proof. destruct k as [[? ?] ?]. reflexivity. Qed.
Lemma sim_receive_connect_complete ini adv i l v s :
  sime (receive_connect_complete aes ini adv i l v (wm m s)) (receive_connect_complete aes ini adv i l v (wm n s)).
Proof.
  unfold receive_connect_complete. rewrite !wm_init. destruct (_ && _); [apply sim_same|].
  rewrite !wm_resolving_on, !wm_resolving.
  assert (X : exists s1 r, forall k,
    (if is_rpa adv then let '(l0, r0) := resolve_private_address aes (resolving_on s) (resolving s) adv in
       (with_resolving l0 (wm k s), match r0 with Some x => x | None => no_address end) else (wm k s, no_address))
    = (wm k s1, r)).
  { destruct (is_rpa adv); [|now exists s, no_address].
    destruct (resolve_private_address aes (resolving_on s) (resolving s) adv) as [l0 r0].
    exists (with_resolving l0 s), (match r0 with Some x => x | None => no_address end). intro k.
    now rewrite wm_with_resolving. }
  destruct X as (s1 & r & X). rewrite !X. rewrite !wm_extended_used.
  pose proof (sim_handle_connection adv r ini true i l v (extended_used s1) s1) as H. unfold simc in H.
  destruct (handle_connection _ _ _ _ _ _ _ _ (wm m s1)) as [[[s2 h] o]|],
    (handle_connection _ _ _ _ _ _ _ _ (wm n s1)) as [[[t2 h'] o']|]; try contradiction; [|exact I].
  destruct H as (-> & s3 & o1 & o2 & A & B & E). injection A as -> ->. injection B as -> ->.
  cbn [sime]. rewrite !wm_init, !wm_with_init. now apply sim_eqv.
Qed.

Lemma eqv_disconnection s h r : eqv (disconnection_event (wm m s) h r) (disconnection_event (wm n s) h r).
Proof.
  clear aes rng cfg. unfold disconnection_event, event_unmasked, eqv, vw, view_of, both_hear, wm, passes.
  destruct m as [[x y] z], n as [[x' y'] z']. cbn [code_of]. le_simpl.
  change (5 <=? 64) with true. cbn iota.
  destruct (N.testbit x (5 - 1)) eqn:E, (N.testbit x' (5 - 1)) eqn:E'; cbn [flat_map app andb code_of];
    rewrite ?E, ?E'; reflexivity.
Qed.
Lemma wm_conns k s : conns (wm k s) = conns s.
Proof. destruct k as [[? ?] ?]. reflexivity. Qed.
Lemma wm_with_conns k v s : with_conns v (wm k s) = wm k (with_conns v s).
Proof. destruct k as [[? ?] ?]. reflexivity. Qed.
Lemma sim_receive_disconnect a b r s :
  sim (receive_disconnect a b r (wm m s)) (receive_disconnect a b r (wm n s)).
Proof.
  unfold receive_disconnect. rewrite !wm_conns. destruct (find_connection _ _ _); [|apply sim_same].
  rewrite !wm_with_conns. apply sim_eqv, eqv_disconnection.
Qed.

(** * Steps and histories *)
Definition simres (r q : result) : Prop :=
  match r, q with
  | Ok s st o, Ok t st' o' => st = st' /\ sim (s, o) (t, o')
  | Abort, Abort => True
  | OutOfBounds, OutOfBounds => True
  | Hang, Hang => True
  | _, _ => False
  end.
Lemma simres_quiet (f : le -> le * status) s : (forall k, f (wm k s) = lift k (f s)) ->
  simres (quiet (f (wm m s))) (quiet (f (wm n s))).
Proof. intro H. rewrite !H. destruct (f s) as [s1 st]. split; [reflexivity|]. apply sim_same. Qed.
Lemma simres_effect r q : sime r q -> simres (of_effect r) (of_effect q).
Proof. destruct r, q; cbn; trivial. intro H. now split. Qed.
Lemma simres_pair r q : sim r q -> simres (of_pair r) (of_pair q).
Proof. destruct r, q. intro H. now split. Qed.

Lemma sim_receive now s p :
  simres (receive aes rng cfg now (wm m s) p) (receive aes rng cfg now (wm n s) p).
Proof.
  destruct p; cbn [receive].
  - apply simres_effect. apply sim_then_also; [apply sim_scan_legacy_pdu|]. intros. apply wm_connect_legacy_pdu.
  - apply simres_effect. apply sim_then_also; [apply sim_scan_extended_pdu|]. intros. apply wm_connect_extended_pdu.
  - apply simres_pair, sim_receive_periodic.
  - apply simres_pair. rewrite !wm_receive_scan. destruct (receive_scan aes _ _ s). apply sim_same.
  - apply simres_pair, sim_receive_scan_response.
  - apply simres_effect, sim_receive_connect.
  - apply simres_effect, sim_receive_connect_complete.
  - apply simres_pair, sim_receive_disconnect.
Qed.

Lemma simres_tick now s : simres (tick now (wm m s)) (tick now (wm n s)).
Proof.
  unfold tick. pose proof (sim_le_advertising now s) as H. unfold simo in H.
  destruct (le_advertising now (wm m s)) as [x|], (le_advertising now (wm n s)) as [y|]; try contradiction; [|exact I].
  destruct H as (s1 & o1 & p1 & -> & -> & E1).
  destruct (sim_le_scanning now s1) as (s2 & o2 & p2 & -> & -> & E2).
  split; [reflexivity|]. apply sim_eqv. now apply eqv_app.
Qed.

Lemma sim_command now s c : changes_masks (Command c) = false ->
  simres (run_command aes rng cfg now (wm m s) c) (run_command aes rng cfg now (wm n s) c).
Proof.
  intro H. destruct c; try discriminate H; cbn [run_command].
  all: try (apply (simres_quiet (fun s => _ s)); intros ?;
    first [ apply wm_set_random_address | apply wm_set_adv_parameters | apply wm_set_adv_data
          | apply wm_set_scan_response_data | apply wm_set_adv_enable | apply wm_set_set_random_address
          | apply wm_set_ext_parameters | apply wm_set_ext_data | apply wm_set_ext_scan_response
          | apply wm_remove_set | apply wm_clear_sets | apply wm_set_periodic_parameters
          | apply wm_set_periodic_data | apply wm_set_periodic_enable | apply wm_clear_accept_list
          | apply wm_add_accept_list | apply wm_remove_accept_list | apply wm_add_resolving_list
          | apply wm_remove_resolving_list | apply wm_clear_resolving_list | apply wm_set_address_resolution
          | apply wm_set_privacy_mode | apply wm_add_padv | apply wm_remove_padv | apply wm_clear_padv
          | apply wm_create_sync | apply wm_terminate_sync | apply wm_set_scan_parameters
          | apply wm_set_scan_enable | apply wm_set_ext_scan_parameters | apply wm_set_ext_scan_enable
          | apply wm_create_connection | apply wm_ext_create_connection ]; fail).
  - rewrite !wm_set_ext_enable. destruct (set_ext_enable aes rng now on l s); [|exact I].
    split; [reflexivity|]. apply sim_same.
  - unfold cancel_sync. replace (syncing (wm m s)) with (syncing s) by (destruct m as [[? ?] ?]; reflexivity).
    replace (syncing (wm n s)) with (syncing s) by (destruct n as [[? ?] ?]; reflexivity).
    destruct (syncing s); cbn [loud is_some negb]; (split; [reflexivity|]); [|apply sim_same].
    rewrite unmasked_m, unmasked_n. eexists (with_syncing None s), _, _. split; [|split].
    + destruct m as [[? ?] ?]. reflexivity.
    + destruct n as [[? ?] ?]. reflexivity.
    + apply eqv_one'; [reflexivity|lia|lia].
  - unfold cancel_connection. rewrite !wm_init, !wm_with_init, !unmasked_m, !unmasked_n.
    destruct (negb _); (split; [reflexivity|]); [apply sim_same|]. apply sim_eqv. apply (eqv_attempt true).
  - unfold disconnect. rewrite !wm_conns.
    destruct (lookup (conns s) h) as [c|]; (split; [reflexivity|]); [|apply sim_same].
    rewrite !wm_with_conns. apply sim_eqv.
    apply (eqv_app [_] [_]); [apply eqv_refl|]. apply eqv_disconnection.
Qed.

Lemma sim_step now s o : changes_masks o = false ->
  simres (step aes rng cfg now (wm m s) o) (step aes rng cfg now (wm n s) o).
Proof.
  destruct o as [c|p|]; cbn [step]; intro H.
  - now apply sim_command.
  - apply sim_receive.
  - apply simres_tick.
Qed.

End WithController.

(** * The statements *)
Lemma wm_masks s : wm (event_mask s, event_mask_2 s, le_mask s) s = s.
Proof. destruct s. reflexivity. Qed.
Lemma same_but_masks_iff s t : same_but_masks s t <-> exists a, t = wm a s.
Proof.
  split.
  - intro H. exists (event_mask t, event_mask_2 t, le_mask t). exact H.
  - intros [[[a b] c] ->]. reflexivity.
Qed.
Lemma wm_wm a b s : wm a (wm b s) = wm a s.
Proof. destruct a as [[? ?] ?], b as [[? ?] ?]. reflexivity. Qed.
Lemma same_wm a b s : same_but_masks (wm a s) (wm b s).
Proof. apply same_but_masks_iff. exists b. now rewrite wm_wm. Qed.
Lemma same_refl s : same_but_masks s s.
Proof. destruct s. reflexivity. Qed.
Lemma same_but_masks_sym s t : same_but_masks s t -> same_but_masks t s.
Proof.
  intros H. apply same_but_masks_iff in H as [a ->]. rewrite <- (wm_masks s) at 2. apply same_wm.
Qed.
Lemma same_but_masks_trans s t u : same_but_masks s t -> same_but_masks t u -> same_but_masks s u.
Proof.
  intros H K. apply same_but_masks_iff in H as [a ->]. apply same_but_masks_iff in K as [b ->].
  rewrite wm_wm. apply same_but_masks_iff. now exists b.
Qed.
Lemma view_wm m n s : view_of (wm m s) (wm n s) = vw m n.
Proof. destruct m as [[? ?] ?], n as [[? ?] ?]. reflexivity. Qed.

Section Statements.
Variable aes : list N -> list N -> list N.
Variable rng : N -> N.
Variable cfg : config.

Lemma step_keeps_masks now s t o : same_but_masks s t -> changes_masks o = false ->
  match step aes rng cfg now s o, step aes rng cfg now t o with
  | Ok s' st out, Ok t' st' out' =>
      same_but_masks s' t' /\ st = st' /\ seen_alike s t out out'
      /\ event_mask s' = event_mask s /\ event_mask_2 s' = event_mask_2 s /\ le_mask s' = le_mask s
  | Abort, Abort => True
  | OutOfBounds, OutOfBounds => True
  | Hang, Hang => True
  | _, _ => False
  end.
Proof.
  intros H C. apply same_but_masks_iff in H as [n ->]. set (m := (event_mask s, event_mask_2 s, le_mask s)).
  pose proof (sim_step aes rng cfg m n now s o C) as R. unfold m in R. rewrite wm_masks in R. fold m in R.
  unfold simres in R.
  destruct (step aes rng cfg now s o) as [s' st out| | |], (step aes rng cfg now (wm n s) o) as [t' st' out'| | |];
    try contradiction; try exact I.
  destruct R as (<- & s1 & o1 & o2 & A & B & E). injection A as -> ->. injection B as -> ->.
  split; [apply (same_wm m n)|]. split; [reflexivity|]. split; [|unfold m; repeat split].
  unfold seen_alike. rewrite <- (wm_masks s) at 1 3. fold m. rewrite view_wm. exact E.
Qed.

Lemma step_alike now s t o o' : same_but_masks s t -> same_op o o' ->
  alike s t (step aes rng cfg now s o) (step aes rng cfg now t o').
Proof.
  intros H K. destruct (changes_masks o) eqn:C.
  - destruct o as [c| |]; try discriminate C. destruct o' as [d| |]; try discriminate K.
    apply same_but_masks_iff in H as [n ->]. destruct n as [[x y] z].
    destruct c; try discriminate C; destruct d; try contradiction K; try discriminate K.
    + split; [reflexivity|]. split; reflexivity.
    + split; [reflexivity|]. split; reflexivity.
    + split; [reflexivity|]. split; reflexivity.
    + split; [reflexivity|]. split; reflexivity.
  - assert (o = o') as <-.
    { destruct o as [c| |], o' as [d| |]; try discriminate K; try exact K. cbn in K.
      destruct c; try discriminate C; cbn in K; congruence. }
    pose proof (step_keeps_masks now s t o H C) as R. unfold alike.
    destruct (step aes rng cfg now s o), (step aes rng cfg now t o); try contradiction; try exact I.
    destruct R as (A & B & D & _). now repeat split.
Qed.

Lemma packets_seen s t : forall o,
  packets o = flat_map (fun v => match v with Packet p => [p] | _ => [] end) (flat_map (view_of s t) o).
Proof.
  induction o as [|x o IH]; [reflexivity|]. unfold packets in *. cbn [flat_map]. rewrite flat_map_app, <- IH. f_equal.
  unfold view_of. destruct x as [p|e]; [reflexivity|]. destruct e; cbn [flat_map app];
    repeat (match goal with |- context [if ?b then _ else _] => destruct b end); reflexivity.
Qed.
Lemma packets_alike s t o o' : seen_alike s t o o' -> packets o = packets o'.
Proof. intro H. unfold seen_alike in H. now rewrite (packets_seen s t o), (packets_seen s t o'), H. Qed.
Lemma packets_app a b : packets (a ++ b) = packets a ++ packets b.
Proof. apply flat_map_app. Qed.

(** Two histories that differ only in the masks lead to the same packets *)
Lemma run_alike : forall h k, same_history h k -> forall s t, same_but_masks s t ->
  match run aes rng cfg s h, run aes rng cfg t k with
  | Some (s', o), Some (t', o') => same_but_masks s' t' /\ packets o = packets o'
  | None, None => True
  | _, _ => False
  end.
Proof.
  intros h k H. induction H as [|[u x] [u' y] h k [E K] H IH]; intros s t S.
  - cbn [run]. split; [exact S|reflexivity].
  - cbn [fst snd] in E, K. subst u'. cbn [run]. pose proof (step_alike u s t x y S K) as A. unfold alike in A.
    destruct (step aes rng cfg u s x) as [s1 st o| | |], (step aes rng cfg u t y) as [t1 st' o'| | |];
      try contradiction; try exact I.
    destruct A as (S1 & _ & V). specialize (IH s1 t1 S1).
    destruct (run aes rng cfg s1 h) as [[s2 o2]|], (run aes rng cfg t1 k) as [[t2 o2']|]; try contradiction; [|exact I].
    destruct IH as (S2 & P). split; [exact S2|]. rewrite !packets_app, P. now rewrite (packets_alike s t o o' V).
Qed.

(** While no mask changes, the two hosts see everything alike *)
Lemma run_seen_alike : forall h, forallb (fun x => negb (changes_masks (snd x))) h = true ->
  forall s t, same_but_masks s t ->
  match run aes rng cfg s h, run aes rng cfg t h with
  | Some (s', o), Some (t', o') => same_but_masks s' t' /\ seen_alike s t o o'
  | None, None => True
  | _, _ => False
  end.
Proof.
  induction h as [|[u x] h IH]; intros C s t S.
  - cbn [run]. split; [exact S|reflexivity].
  - cbn [forallb snd] in C. apply andb_prop in C as [C1 C]. apply negb_true_iff in C1.
    cbn [run]. pose proof (step_keeps_masks u s t x S C1) as A.
    pose proof (step_keeps_masks u t s x (same_but_masks_sym _ _ S) C1) as A'.
    destruct (step aes rng cfg u s x) as [s1 st o| | |], (step aes rng cfg u t x) as [t1 st' o'| | |];
      try contradiction; try exact I.
    destruct A as (S1 & _ & V & M1 & M2 & M3). destruct A' as (_ & _ & _ & N1 & N2 & N3). specialize (IH C s1 t1 S1).
    destruct (run aes rng cfg s1 h) as [[s2 o2]|], (run aes rng cfg t1 h) as [[t2 o2']|]; try contradiction; [|exact I].
    destruct IH as (S2 & W). split; [exact S2|]. unfold seen_alike in *. rewrite !flat_map_app, V. f_equal.
    assert (X : view_of s1 t1 = view_of s t).
    { unfold view_of, both_hear, passes. now rewrite M1, M3, N1, N3. }
    now rewrite X in W.
Qed.

Lemma page1_bit c b : In (c, b) page1_bits -> b = c - 1.
Proof.
  intro H. apply N.eqb_eq. revert H. apply (sweep page1_bits (fun x => snd x =? fst x - 1)). reflexivity.
Qed.
Lemma le_bit c b : In (c, b) le_bits -> b = c - 1.
Proof.
  intro H. apply N.eqb_eq. revert H. apply (sweep le_bits (fun x => snd x =? fst x - 1)). reflexivity.
Qed.
Lemma allowed_passes s e : allowed s e -> passes s (code_of e) = true.
Proof.
  unfold allowed, passes. intros [(b & I1 & T1) H]. destruct (code_of e) as [evt [sub|]]; cbn [fst snd] in *;
    apply page1_bit in I1; subst b.
  - destruct H as (b & I2 & T2). apply le_bit in I2. subst b. now rewrite T1, T2.
  - exact T1.
Qed.
Lemma unmasked_passes s e : passes (unmasked s) (code_of e) = true.
Proof. destruct e; reflexivity. Qed.

Lemma events_view s t : forall o,
  flat_map (fun v => match v with Heard e => [e] | _ => [] end) (flat_map (view_of s t) o)
  = filter (both_hear s t) (events o).
Proof.
  induction o as [|x o IH]; [reflexivity|]. unfold events in *. cbn [flat_map].
  rewrite flat_map_app, IH, filter_app. f_equal.
  destruct x as [p|e]; [reflexivity|]. unfold view_of. destruct e; cbn [flat_map app filter];
    repeat (match goal with |- context [if ?b then _ else _] => destruct b end); reflexivity.
Qed.
Lemma in_events e o : In e (events o) -> In (Notified e) o.
Proof.
  unfold events. rewrite in_flat_map. intros ([p|d] & H & K); [destruct K|].
  destruct d; cbn in K; try contradiction; destruct K as [<-|[]]; exact H.
Qed.
Lemma filter_all {A} (f : A -> bool) (l : list A) : (forall x, In x l -> f x = true) -> filter f l = l.
Proof.
  induction l as [|x l IH]; intro H; [reflexivity|]. cbn [filter]. rewrite (H x (or_introl eq_refl)). f_equal.
  apply IH. intros y I. apply H. now right.
Qed.

(** A host hears exactly the events its masks let through *)
Lemma step_events now s o s' st out : changes_masks o = false -> step aes rng cfg now s o = Ok s' st out ->
  exists t' out', step aes rng cfg now (unmasked s) o = Ok t' st out'
    /\ events out = filter (fun e => passes s (code_of e)) (events out').
Proof.
  intros C E. assert (S : same_but_masks s (unmasked s)) by reflexivity.
  pose proof (step_keeps_masks now s (unmasked s) o S C) as R. rewrite E in R.
  destruct (step aes rng cfg now (unmasked s) o) as [t' st' out'| | |]; try contradiction.
  destruct R as (_ & <- & V & _). exists t', out'. split; [reflexivity|].
  unfold seen_alike in V. apply (f_equal (flat_map (fun v => match v with Heard e => [e] | _ => [] end))) in V.
  rewrite !events_view in V. rewrite filter_all in V.
  - rewrite V. apply filter_ext. intro e. unfold both_hear. rewrite unmasked_passes. apply andb_true_r.
  - intros e I. unfold both_hear. rewrite unmasked_passes, andb_true_r. apply allowed_passes.
    apply in_events in I. exact (notified_allowed aes rng cfg now s o s' st out e E I).
Qed.

Lemma step_masks now s o s' st out : step aes rng cfg now s o = Ok s' st out ->
  (event_mask s', event_mask_2 s', le_mask s') = masks_after (event_mask s, event_mask_2 s, le_mask s) o.
Proof.
  intro E. destruct (changes_masks o) eqn:C.
  - destruct o as [c| |]; try discriminate C. destruct c; try discriminate C; injection E as <- _ _; reflexivity.
  - pose proof (step_keeps_masks now s s o (same_refl s) C) as R. rewrite E in R.
    destruct R as (_ & _ & _ & -> & -> & ->). destruct o as [c| |]; try reflexivity.
    destruct c; try discriminate C; reflexivity.
Qed.
Lemma run_masks : forall h s s' o, run aes rng cfg s h = Some (s', o) ->
  (event_mask s', event_mask_2 s', le_mask s')
  = fold_left (fun m x => masks_after m (snd x)) h (event_mask s, event_mask_2 s, le_mask s).
Proof.
  induction h as [|[u x] h IH]; intros s s' o E; cbn [run] in E.
  - injection E as <- <-. reflexivity.
  - destruct (step aes rng cfg u s x) as [s1 st o1| | |] eqn:F; try discriminate E.
    destruct (run aes rng cfg s1 h) as [[s2 o2]|] eqn:R; [|discriminate E]. injection E as <- <-.
    cbn [fold_left snd]. rewrite <- (step_masks u s x s1 st o1 F). exact (IH _ _ _ R).
Qed.
Lemma masks_are_set addr h s o : run aes rng cfg (new_le addr) h = Some (s, o) ->
  (event_mask s, event_mask_2 s, le_mask s) = masks_set h.
Proof. intro E. exact (run_masks h _ _ _ E). Qed.

End Statements.
