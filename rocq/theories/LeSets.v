(** What each step of the LE controller does to one advertising set: the steps are
    described, set by set, by the relation [change], proved complete in
    [step_changes]. *)
From Verif Require Import Prelude Address Rpa Table LeTypes LeAdvertise LeLists LeScan LeInitiate LeHost LeTac LeFrame LeStep.
Open Scope N_scope.

(** What the parameters command stores in a set *)
Definition apply_params (e : ext_params) (a : adv_set) : adv_set :=
  with_props (e_props e) (with_interval (e_min e) (with_channel_map (N.land (e_map e) 7) (with_own (e_own e)
    (with_peer_kind (e_peer_kind e) (with_peer (e_peer e) (with_policy (e_policy e)
    (with_power (e_power e) (with_primary (e_primary e) (with_secondary (e_secondary e)
    (with_sid (e_sid e) (with_scan_notify (e_notify e) a))))))))))).

(** What the parameters command checks *)
Definition params_ok (e : ext_params) (a : adv_set) : Prop :=
  let p := e_props e in
  enabled a = false
  /\ (legacy_pdus p = true -> legal_legacy p = true)
  /\ (can_have_data p = false -> bytes (adv_data a) = [])
  /\ (scannable p = false -> bytes (scan_data a) = [])
  /\ (legacy_pdus p = true -> lenN (bytes (adv_data a)) <= 31 /\ lenN (bytes (scan_data a)) <= 31)
  /\ (legacy_pdus p = false -> connectable p = true -> scannable p = false)
  /\ (legacy_pdus p = false -> connectable p = true -> directed p = true -> high_duty p = false)
  /\ 32 <= e_min e <= e_max e
  /\ N.land (e_map e) 7 <> 0
  /\ (legacy_pdus p = true -> e_primary e = PRIMARY_1M)
  /\ (periodic_on a = true -> connectable p = false /\ scannable p = false /\ legacy_pdus p = false /\ anonymous p = false)
  /\ (legacy_pdus p = false -> lenN (bytes (adv_data a)) <= 1650 /\ lenN (bytes (scan_data a)) <= 1650).

(** What the enable command checks for each set *)
Definition enable_ok (e : enabled_set) (a : adv_set) : Prop :=
  let p := props a in
  (connectable p = true -> directed p = true -> high_duty p = true -> 0 < en_duration e <= 128)
  /\ partial (adv_data a) = false /\ partial (scan_data a) = false
  /\ (legacy_pdus p = false -> scannable p = true -> bytes (scan_data a) <> [])
  /\ (legacy_pdus p = false -> connectable p = true -> lenN (bytes (adv_data a)) <= max_data_length p)
  /\ (legacy_pdus p = false -> lenN (bytes (adv_data a)) <= 1650 /\ lenN (bytes (scan_data a)) <= 1650).

Definition started (now : N) (e : enabled_set) (a : adv_set) : adv_set :=
  with_timeout (if 0 <? en_duration e then Some (now + en_duration e * 10000) else None)
    (enable_set now (with_num_events 0 (with_max_events (en_max e) a))).

Definition new_addresses (ad t : address_with_type) (a : adv_set) : adv_set := with_target t (with_adv_address ad a).

Definition periodic_props (p : adv_props) : Prop :=
  connectable p = false /\ scannable p = false /\ legacy_pdus p = false /\ anonymous p = false.

(** Steps which leave the set [x] alone *)
Definition leaves (x : N) (o : op) (st : option status) : bool :=
  match o, st with
  | Command Reset, _ => false
  | Command (RemoveSet h), Some SUCCESS | Command (SetSetRandomAddress h _), Some SUCCESS
  | Command (SetExtParameters h _), Some SUCCESS | Command (SetPeriodicParameters h _ _), Some SUCCESS
  | Command (SetPeriodicEnable _ _ h), Some SUCCESS => negb (h =? x)
  | Command ClearSets, Some SUCCESS => false
  | Command (SetExtData h _ _ | SetExtScanResponse h _ _ | SetPeriodicData h _ _),
    Some (SUCCESS | MEMORY_CAPACITY_EXCEEDED | PACKET_TOO_LONG) => negb (h =? x)
  | Command (SetExtEnable _ l), Some SUCCESS => negb (mem x (map en_handle l)) && negb (is_empty l)
  | Tick, _ => false
  | _, _ => true
  end.

Definition discarded (st : status) : Prop := st = MEMORY_CAPACITY_EXCEEDED \/ st = PACKET_TOO_LONG.

Inductive change (cfg : config) (s : le) (now : N) (x : N) : op -> option status -> option adv_set -> option adv_set -> Prop :=
| ch_reset : forall st a, change cfg s now x (Command Reset) st a None
| ch_clear : forall a, (forall b, a = Some b -> enabled b = false) ->
    change cfg s now x (Command ClearSets) (Some SUCCESS) a None
| ch_remove : forall a, enabled a = false ->
    change cfg s now x (Command (RemoveSet x)) (Some SUCCESS) (Some a) None
| ch_random : forall a r, enabled a = false ->
    change cfg s now x (Command (SetSetRandomAddress x r)) (Some SUCCESS) (Some a) (Some (with_set_random (Some r) a))
| ch_params : forall o a e, a = match o with Some a => a | None => new_set x end -> params_ok e a ->
    change cfg s now x (Command (SetExtParameters x e)) (Some SUCCESS) o (Some (apply_params e a))
| ch_data : forall a op d, can_have_data (props a) = true ->
    (legacy_pdus (props a) = true -> op = COMPLETE /\ lenN d <= 31) ->
    (enabled a = true -> op = COMPLETE \/ op = UNCHANGED) ->
    lenN (bytes (apply_fragment op d (adv_data a))) <= cfg_max_data cfg ->
    (enabled a = true -> lenN (bytes (apply_fragment op d (adv_data a))) <= max_data_length (props a)) ->
    change cfg s now x (Command (SetExtData x op d)) (Some SUCCESS) (Some a)
      (Some (with_adv_data (apply_fragment op d (adv_data a)) a))
| ch_data_discarded : forall a op d st, discarded st ->
    change cfg s now x (Command (SetExtData x op d)) (Some st) (Some a) (Some (with_adv_data (Buffer [] false) a))
| ch_scan : forall a op d, op <> UNCHANGED -> (scannable (props a) = false -> d = []) ->
    (scannable (props a) = true -> legacy_pdus (props a) = true -> op = COMPLETE /\ lenN d <= 31) ->
    (enabled a = true -> op = COMPLETE) ->
    (op <> COMPLETE -> d <> []) ->
    (enabled a = true -> scannable (props a) = true -> legacy_pdus (props a) = false -> d <> []) ->
    lenN (bytes (apply_fragment op d (scan_data a))) <= cfg_max_data cfg ->
    lenN (bytes (apply_fragment op d (scan_data a))) <= 1650 ->
    change cfg s now x (Command (SetExtScanResponse x op d)) (Some SUCCESS) (Some a)
      (Some (with_scan_data (apply_fragment op d (scan_data a)) a))
| ch_scan_discarded : forall a op d st, discarded st ->
    change cfg s now x (Command (SetExtScanResponse x op d)) (Some st) (Some a) (Some (with_scan_data (Buffer [] false) a))
| ch_periodic : forall a op d, periodic_interval a <> 0 ->
    (periodic_on a = true -> op = COMPLETE \/ op = UNCHANGED) ->
    lenN (bytes (apply_fragment op d (periodic_data a))) <= cfg_max_data cfg ->
    lenN (bytes (apply_fragment op d (periodic_data a))) <= 1650 ->
    change cfg s now x (Command (SetPeriodicData x op d)) (Some SUCCESS) (Some a)
      (Some (with_periodic_data (apply_fragment op d (periodic_data a)) a))
| ch_periodic_discarded : forall a op d st, discarded st ->
    change cfg s now x (Command (SetPeriodicData x op d)) (Some st) (Some a) (Some (with_periodic_data (Buffer [] false) a))
| ch_pparams : forall a imin imax, 6 <= imin <= imax -> periodic_props (props a) -> periodic_on a = false ->
    change cfg s now x (Command (SetPeriodicParameters x imin imax)) (Some SUCCESS) (Some a)
      (Some (with_periodic_interval imax a))
| ch_pdisable : forall a adi, change cfg s now x (Command (SetPeriodicEnable false adi x)) (Some SUCCESS) (Some a)
    (Some (disable_periodic a))
| ch_penable : forall a adi, partial (periodic_data a) = false -> periodic_interval a <> 0 -> periodic_props (props a) ->
    (adi = true -> cfg_adi cfg = true) ->
    change cfg s now x (Command (SetPeriodicEnable true adi x)) (Some SUCCESS) (Some a) (Some (enable_periodic now a))
| ch_addresses : forall a ad t l st, st <> SUCCESS ->
    change cfg s now x (Command (SetExtEnable true l)) (Some st) (Some a) (Some (new_addresses ad t a))
| ch_start : forall a ad t l e, In e l -> en_handle e = x -> enable_ok e a ->
    change cfg s now x (Command (SetExtEnable true l)) (Some SUCCESS) (Some a) (Some (started now e (new_addresses ad t a)))
| ch_stop : forall a l, In x (map en_handle l) \/ l = [] ->
    change cfg s now x (Command (SetExtEnable false l)) (Some SUCCESS) (Some a) (Some (disable_set a))
| ch_connect : forall a i adv ci la su, enabled a = true -> connectable (props a) = true -> adv_address a = adv ->
    change cfg s now x (Receive (AirConnect i adv ci la su)) None (Some a) (Some (disable_set a))
| ch_tick : forall a a' o, advertise_set s now a = Some (a', o) -> change cfg s now x Tick None (Some a) (Some a')
| ch_tick_none : change cfg s now x Tick None None None
| ch_same : forall o st a, leaves x o st = true -> change cfg s now x o st a a
| ch_absent : forall on l, l = [] -> change cfg s now x (Command (SetExtEnable on l)) (Some SUCCESS) None None.

(** * Auxiliary lemmas *)

Lemma new_addresses_same : forall a, new_addresses (adv_address a) (target a) a = a.
Proof. intros []. reflexivity. Qed.

Lemma new_addresses_twice : forall b u c t a, new_addresses b u (new_addresses c t a) = new_addresses b u a.
Proof. intros b u c t []. reflexivity. Qed.

Lemma enable_ok_addresses : forall e ad t a, enable_ok e (new_addresses ad t a) <-> enable_ok e a.
Proof. intros e ad t []. unfold enable_ok, new_addresses. le_simpl. reflexivity. Qed.

Lemma is_empty_true : forall (A : Type) (l : list A), is_empty l = true <-> l = [].
Proof. intros A []; cbn; split; congruence. Qed.
Lemma is_empty_false : forall (A : Type) (l : list A), is_empty l = false <-> l <> [].
Proof. intros A []; cbn; split; congruence. Qed.

Lemma awt_eqb_eq : forall a b, awt_eqb a b = true <-> a = b.
Proof.
  intros [a t] [b u]. unfold awt_eqb. cbn [awt_addr awt_type]. rewrite andb_true_iff, list_eqb_eq. split.
  - intros [-> E]. destruct t, u; try discriminate; reflexivity.
  - intros [= -> ->]. split; [reflexivity|]. now destruct u.
Qed.

(** Only the addresses of sets in [l] were changed *)
Definition only_addresses (l : list N) (m m' : table adv_set) : Prop :=
  keys m' = keys m
  /\ forall x, match lookup m x with
               | None => lookup m' x = None
               | Some a => exists ad t, lookup m' x = Some (new_addresses ad t a)
                                        /\ (~ In x l -> ad = adv_address a /\ t = target a)
               end.

Lemma only_addresses_refl : forall l m, only_addresses l m m.
Proof.
  intros l m. split; [reflexivity|]. intros x. destruct (lookup m x) as [a|]; [|reflexivity].
  exists (adv_address a), (target a). rewrite new_addresses_same. auto.
Qed.

Lemma only_addresses_trans : forall l m1 m2 m3, only_addresses l m1 m2 -> only_addresses l m2 m3 -> only_addresses l m1 m3.
Proof.
  intros l m1 m2 m3 [K1 H1] [K2 H2]. split; [congruence|]. intros x. specialize (H1 x). specialize (H2 x).
  destruct (lookup m1 x) as [a|].
  - destruct H1 as (ad & t & E & A). rewrite E in H2. destruct H2 as (ad2 & t2 & E2 & A2).
    exists ad2, t2. rewrite new_addresses_twice in E2. split; [exact E2|]. intros N.
    destruct (A N) as [-> ->]. rewrite new_addresses_same in A2. exact (A2 N).
  - rewrite H1 in H2. exact H2.
Qed.

Lemma only_addresses_put : forall l m h a ad t, In h l -> lookup m h = Some a ->
  only_addresses l m (put m h (new_addresses ad t a)).
Proof.
  intros l m h a ad t IN L. split; [apply keys_put_in; exact (lookup_in _ _ _ L)|].
  intros x. rewrite lookup_put. destruct (N.eqb_spec x h) as [->|NE].
  - rewrite L. exists ad, t. split; [reflexivity|]. contradiction.
  - destruct (lookup m x) as [b|]; [|reflexivity].
    exists (adv_address b), (target b). rewrite new_addresses_same. auto.
Qed.

Lemma only_addresses_more : forall l l' m m', incl l l' -> only_addresses l m m' -> only_addresses l' m m'.
Proof.
  intros l l' m m' I [K H]. split; [exact K|]. intros x. specialize (H x). destruct (lookup m x) as [a|]; [|exact H].
  destruct H as (ad & t & E & A). exists ad, t. split; [exact E|]. intros N. apply A. intros X. apply N. now apply I.
Qed.

Section WithController.
Variable aes : list N -> list N -> list N.
Variable rng : N -> N.
Variable cfg : config.
Notation step := (step aes rng cfg).

Lemma prepare_set_sets : forall e s s' r, prepare_set aes rng e s = (s', r) ->
  only_addresses [en_handle e] (sets s) (sets s')
  /\ (r = None -> forall a, lookup (sets s) (en_handle e) = Some a -> enable_ok e a)
  /\ r <> Some SUCCESS.
Proof.
  unfold prepare_set. intros e s s' r H.
  assert (forall q, q <> SUCCESS -> (s, Some q) = (s', r) ->
    only_addresses [en_handle e] (sets s) (sets s')
    /\ (r = None -> forall a, lookup (sets s) (en_handle e) = Some a -> enable_ok e a) /\ r <> Some SUCCESS) as SAME.
  { intros q Q [= <- <-]. split; [apply only_addresses_refl|]. split; [discriminate|congruence]. }
  destruct (lookup (sets s) (en_handle e)) as [a|] eqn:L.
  2:{ injection H as <- <-. split; [apply only_addresses_refl|]. split; [discriminate|discriminate]. }
  destruct (_ && _ && _ && _) eqn:C1; [refine (SAME _ _ H); discriminate|].
  destruct (partial (adv_data a) || partial (scan_data a)) eqn:C2; [refine (SAME _ _ H); discriminate|].
  destruct (negb (legacy_pdus (props a)) && scannable (props a) && is_empty _) eqn:C3; [refine (SAME _ _ H); discriminate|].
  destruct (negb (legacy_pdus (props a)) && connectable (props a) && _) eqn:C4; [refine (SAME _ _ H); discriminate|].
  destruct (negb (legacy_pdus (props a)) && (_ || _)) eqn:C5; [refine (SAME _ _ H); discriminate|]. clear SAME.
  assert (enable_ok e a) as OK.
  { unfold enable_ok. apply orb_false_iff in C2 as [C2 C2'].
    split; [|split; [assumption|split; [assumption|split; [|split]]]].
    - intros B1 B2 B3. rewrite B1, B2, B3 in C1. cbn [andb] in C1. apply orb_false_iff in C1 as [C1 C1'].
      apply N.eqb_neq in C1. apply N.ltb_ge in C1'. clear - C1 C1'. lia.
    - intros B1 B2 B3. rewrite B1, B2, B3 in C3. discriminate.
    - intros B1 B2. rewrite B1, B2 in C4. cbn [negb andb] in C4. now apply N.ltb_ge in C4.
    - intros B1. rewrite B1 in C5. cbn [negb andb] in C5. apply orb_false_iff in C5 as [C5 C5'].
      apply N.ltb_ge in C5. apply N.ltb_ge in C5'. unfold max_extended_pdu in *. auto. }
  destruct (generate aes rng _ true s) as [s1 r1] eqn:G1.
  destruct (generate_frame _ _ _ _ _ _ _ G1) as (l1 & p1 & -> & _).
  destruct (choose_own _ _ _ _) as [addr|].
  - assert (forall b, lookup (sets s) (en_handle e) = Some b -> enable_ok e b) as OK' by (intros b; rewrite L; now intros [= <-]).
    destruct (directed _).
    + destruct (generate aes rng _ false _) as [s2 r2] eqn:G2.
      destruct (generate_frame _ _ _ _ _ _ _ G2) as (l2 & p2 & -> & _).
      injection H as <- <-. le_simpl. rewrite L in OK'. split; [|split; [intros _; exact OK'|discriminate]].
      apply only_addresses_put; [now left|exact L].
    + injection H as <- <-. le_simpl. rewrite L in OK'. split; [|split; [intros _; exact OK'|discriminate]].
      replace (with_adv_address addr a) with (new_addresses addr (target a) a) by (destruct a; reflexivity).
      apply only_addresses_put; [now left|exact L].
  - injection H as <- <-. le_simpl. split; [apply only_addresses_refl|]. split; [discriminate|congruence].
Qed.

Lemma enable_ok_only : forall l m m' e, only_addresses l m m' ->
  (forall a, lookup m' (en_handle e) = Some a -> enable_ok e a) ->
  (forall a, lookup m (en_handle e) = Some a -> enable_ok e a).
Proof.
  intros l m m' e [_ H] OK a L. specialize (H (en_handle e)). rewrite L in H. destruct H as (ad & t & E & _).
  apply OK in E. now apply enable_ok_addresses in E.
Qed.

Lemma prepare_sets_sets : forall l s s' r, prepare_sets aes rng l s = (s', r) ->
  only_addresses (map en_handle l) (sets s) (sets s')
  /\ (r = None -> forall e a, In e l -> lookup (sets s) (en_handle e) = Some a -> enable_ok e a)
  /\ r <> Some SUCCESS.
Proof.
  induction l as [|e l IH]; cbn [prepare_sets map]; intros s s' r H.
  - injection H as <- <-. split; [apply only_addresses_refl|]. split; [contradiction|discriminate].
  - destruct (prepare_set aes rng e s) as [s1 r1] eqn:E.
    destruct (prepare_set_sets _ _ _ _ E) as (O1 & OK1 & NS).
    destruct r1 as [st|].
    + injection H as <- <-. split; [|split; [discriminate|assumption]].
      eapply only_addresses_more; [|exact O1]. intros z [<-|[]]. now left.
    + destruct (IH _ _ _ H) as (O2 & OK2 & NS2). split; [|split; [|assumption]].
      * eapply only_addresses_trans; eapply only_addresses_more; try eassumption.
        -- intros z [<-|[]]. now left.
        -- now apply incl_tl, incl_refl.
      * intros R f a [<-|IN] L; [now apply OK1|].
        eapply (enable_ok_only _ _ _ f O1); [|exact L]. intros b LB. exact (OK2 R f b IN LB).
Qed.

(** The handles of an enable command which passed the first checks *)
Lemma check_handles_ok : forall s l used, check_handles s used l = CheckOk ->
  NoDup (map en_handle l) /\ (forall e, In e l -> has (sets s) (en_handle e) = true /\ ~ In (en_handle e) used).
Proof.
  intros s. induction l as [|e l IH]; cbn [check_handles map]; intros used H.
  - split; [constructor|contradiction].
  - destruct (255 <=? _); [discriminate|]. destruct (mem _ _) eqn:M; [discriminate|].
    destruct (negb (has _ _)) eqn:HS; [discriminate|]. apply negb_false_iff in HS. apply mem_false in M.
    destruct (IH _ H) as [ND ALL]. split.
    + constructor; [|exact ND]. intros IN. apply in_map_iff in IN as (f & E & IN).
      destruct (ALL f IN) as [_ X]. apply X. left. auto.
    + intros f [<-|IN]; [auto|]. destruct (ALL f IN) as [X Y]. split; [exact X|]. intros Z. apply Y. now right.
Qed.

Lemma lookup_start : forall now l s x, NoDup (map en_handle l) ->
  match find (fun e => en_handle e =? x) l with
  | None => lookup (sets (fold_left (fun s e => start_set now e s) l s)) x = lookup (sets s) x
  | Some e => lookup (sets (fold_left (fun s e => start_set now e s) l s)) x = option_map (started now e) (lookup (sets s) x)
  end.
Proof.
  intros now. induction l as [|e l IH]; cbn [find fold_left map]; intros s x ND; [reflexivity|].
  inversion ND as [|? ? N1 N2]; subst. specialize (IH (start_set now e s) x N2).
  assert (lookup (sets (start_set now e s)) x
          = if en_handle e =? x then option_map (started now e) (lookup (sets s) x) else lookup (sets s) x) as S.
  { unfold start_set. destruct (lookup (sets s) (en_handle e)) as [a|] eqn:L.
    - le_simpl. rewrite lookup_put, (N.eqb_sym x). destruct (N.eqb_spec (en_handle e) x) as [<-|]; [|reflexivity].
      rewrite L. reflexivity.
    - destruct (N.eqb_spec (en_handle e) x) as [<-|]; [|reflexivity]. now rewrite L. }
  destruct (N.eqb_spec (en_handle e) x) as [E|E].
  - destruct (find _ l) as [f|] eqn:F.
    + exfalso. apply find_some in F as [F1 F2]. apply N.eqb_eq in F2. apply N1. rewrite E, <- F2. now apply in_map.
    + rewrite IH, S. reflexivity.
  - destruct (find _ l) as [f|]; rewrite IH, S; reflexivity.
Qed.

Lemma lookup_stop : forall l s x,
  lookup (sets (fold_left (fun s e => stop_set e s) l s)) x
  = if mem x (map en_handle l) then option_map disable_set (lookup (sets s) x) else lookup (sets s) x.
Proof.
  induction l as [|e l IH]; cbn [fold_left map]; intros s x; [reflexivity|]. rewrite IH.
  assert (lookup (sets (stop_set e s)) x
          = if en_handle e =? x then option_map disable_set (lookup (sets s) x) else lookup (sets s) x) as S.
  { unfold stop_set. destruct (lookup (sets s) (en_handle e)) as [a|] eqn:L.
    - le_simpl. rewrite lookup_put, (N.eqb_sym x). destruct (N.eqb_spec (en_handle e) x) as [<-|]; [|reflexivity].
      rewrite L. reflexivity.
    - destruct (N.eqb_spec (en_handle e) x) as [<-|]; [|reflexivity]. now rewrite L. }
  rewrite S. unfold mem. cbn [existsb]. rewrite (N.eqb_sym x (en_handle e)).
  destruct (N.eqb_spec (en_handle e) x) as [E|E]; cbn [orb]; [|reflexivity].
  destruct (lookup (sets s) x) as [a|]; [|now destruct (existsb _ _)]. cbn [option_map].
  destruct (existsb _ _); [|reflexivity]. destruct a. reflexivity.
Qed.

Lemma lookup_map : forall (f : adv_set -> adv_set) m x,
  lookup (map (fun kv => (fst kv, f (snd kv))) m) x = option_map f (lookup m x).
Proof.
  intros f m x. induction m as [|[k a] m IH]; cbn [map fst snd lookup]; [reflexivity|].
  destruct (k =? x); [reflexivity|exact IH].
Qed.

Lemma lookup_advertise : forall s now m m' o x, advertise_sets s now m = Some (m', o) ->
  match lookup m x with
  | None => lookup m' x = None
  | Some a => exists a' o', advertise_set s now a = Some (a', o') /\ lookup m' x = Some a'
  end.
Proof.
  intros s now. induction m as [|[k a] m IH]; cbn [advertise_sets lookup]; intros m' o x H.
  - injection H as <- <-. reflexivity.
  - destruct (advertise_set s now a) as [[a1 o1]|] eqn:E; [|discriminate].
    destruct (advertise_sets s now m) as [[m1 o2]|] eqn:E2; [|discriminate]. injection H as <- <-.
    cbn [lookup]. destruct (k =? x); [eauto|]. exact (IH _ _ x eq_refl).
Qed.

Lemma keys_advertise : forall s now m m' o, advertise_sets s now m = Some (m', o) -> keys m' = keys m.
Proof.
  intros s now. induction m as [|[k a] m IH]; cbn [advertise_sets]; intros m' o H.
  - injection H as <- <-. reflexivity.
  - destruct (advertise_set s now a) as [[a1 o1]|] eqn:E; [|discriminate].
    destruct (advertise_sets s now m) as [[m1 o2]|] eqn:E2; [|discriminate]. injection H as <- <-.
    unfold keys in *. cbn [map fst]. now rewrite (IH _ _ eq_refl).
Qed.

Lemma keys_of_put : forall (m : table adv_set) h a b, lookup m h = Some a -> keys (put m h b) = keys m.
Proof. intros m h a b L. apply keys_put_in. exact (lookup_in _ _ _ L). Qed.

Lemma step_sets_same : forall now s o s' st out, step now s o = Ok s' st out -> touches o PSets = false -> sets s' = sets s.
Proof. intros now s o s' st out H T. exact (step_same _ _ _ _ _ _ _ _ _ H PSets T). Qed.

(** The sets a connection request stops *)
Lemma sets_connect_one : forall m i adv ci la su s s' o, sets_connect_request aes m i adv ci la su s = Next s' o ->
  sets s' = sets s \/ exists h a, In (h, a) m /\ sets s' = put (sets s) h (disable_set a)
    /\ enabled a = true /\ connectable (props a) = true /\ adv_address a = adv.
Proof.
  induction m as [|[h a] m IH]; cbn [sets_connect_request]; intros i adv ci la su s s' o H.
  - injection H as <- <-. now left.
  - destruct (set_connect_request aes h a i adv ci la su s) as [e|e] eqn:E.
    + subst e. right. exists h, a. unfold set_connect_request in E. destruct (negb _) eqn:C in E; [discriminate|].
      apply negb_false_iff in C. bsplit. 
      destruct (resolve aes i s) as [s1 r] eqn:R. destruct (resolve_frame _ _ _ _ _ R) as (l & -> & I).
      destruct (negb _) in E; [discriminate|]. injection E as E.
      destruct (handle_connection _ _ _ _ _ _ _ _ _) as [[[s2 c] o2]|] eqn:HC; [|discriminate].
      destruct (handle_connection_frame _ _ _ _ _ _ _ _ _ _ _ _ HC) as (last & ia & -> & _ & IA).
      injection E as <- <-. le_simpl. split; [now left|]. split; [reflexivity|].
      repeat split; try assumption. now apply awt_eqb_eq.
    + destruct (set_connect_request_frame _ _ _ _ _ _ _ _ _ _ E) as (l & -> & I).
      destruct (IH _ _ _ _ _ _ _ _ H) as [S|(h2 & a2 & IN & S & B)]; [now left|].
      right. exists h2, a2. split; [now right|]. auto.
Qed.

Lemma receive_connect_sets : forall now s i adv ci la su s' st out,
  step now s (Receive (AirConnect i adv ci la su)) = Ok s' st out -> st = None /\
  (sets s' = sets s \/ exists h a, In (h, a) (sets s) /\ sets s' = put (sets s) h (disable_set a)
    /\ enabled a = true /\ connectable (props a) = true /\ adv_address a = adv).
Proof.
  intros now s i adv ci la su s' st out H. cbn [LeHost.step receive] in H. unfold receive_connect, of_effect in H.
  destruct (legacy_connect_request aes i adv ci la su s) as [e|e] eqn:E.
  - unfold legacy_connect_request in E. destruct (negb _) in E; [discriminate|].
    destruct (resolve aes i s) as [s1 r] eqn:R. destruct (resolve_frame _ _ _ _ _ R) as (l & -> & I).
    destruct (negb _) in E; [discriminate|]. injection E as <-.
    destruct (handle_connection _ _ _ _ _ _ _ _ _) as [[[s2 c] o2]|] eqn:HC; [|discriminate].
    destruct (handle_connection_frame _ _ _ _ _ _ _ _ _ _ _ _ HC) as (last & ia & -> & _ & IA).
    injection H as <- <- <-. split; [reflexivity|]. now left.
  - destruct (sets_connect_request aes (sets e) i adv ci la su e) as [s1 o1| |] eqn:E1; try discriminate.
    injection H as <- <- <-. split; [reflexivity|].
    assert (sets e = sets s) as SE.
    { unfold legacy_connect_request in E. destruct (negb _) in E; [now injection E as <-|].
      destruct (resolve aes i s) as [s2 r] eqn:R. destruct (resolve_frame _ _ _ _ _ R) as (l & -> & I).
      destruct (negb _) in E; [|discriminate]. now injection E as <-. }
    rewrite <- SE. exact (sets_connect_one _ _ _ _ _ _ _ _ _ E1).
Qed.

Lemma tick_sets : forall now s s' st out, step now s Tick = Ok s' st out -> st = None /\
  exists o, advertise_sets s now (sets s) = Some (sets s', o).
Proof.
  intros now s s' st out H. cbn [LeHost.step] in H. unfold tick, le_advertising in H.
  assert (exists a o, legacy_timeout now s = (with_legacy a s, o)) as (a1 & o1 & E1).
  { unfold legacy_timeout. destruct (l_timeout _); [destruct (_ && _)|]; try (eexists _, _; reflexivity);
      exists (legacy s), []; destruct s; reflexivity. }
  rewrite E1 in H.
  assert (exists a o, legacy_advertise now (with_legacy a1 s) = (with_legacy a s, o)) as (a2 & o2 & E2).
  { unfold legacy_advertise. destruct (_ && _); [destruct (legacy_pdu_of _)|]; eexists _, _; reflexivity. }
  rewrite E2 in H. change (sets (with_legacy a2 s)) with (sets s) in H.
  assert (forall m, advertise_sets (with_legacy a2 s) now m = advertise_sets s now m) as AE.
  { induction m as [|[k b] m IH]; cbn [advertise_sets]; [reflexivity|]. rewrite IH. reflexivity. }
  rewrite AE in H. destruct (advertise_sets s now (sets s)) as [[m o3]|] eqn:A; [|discriminate].
  destruct (le_scanning now _) as [s3 o4] eqn:S. apply le_scanning_frame in S as [sc ->].
  injection H as <- <- <-. split; [reflexivity|]. le_simpl. eauto.
Qed.

Lemma keys_start : forall now l s, keys (sets (fold_left (fun s e => start_set now e s) l s)) = keys (sets s).
Proof.
  intros now. induction l as [|e l IH]; cbn [fold_left]; intros s; [reflexivity|]. rewrite IH.
  unfold start_set. destruct (lookup (sets s) (en_handle e)) eqn:L; [|reflexivity]. le_simpl. exact (keys_of_put _ _ _ _ L).
Qed.

Lemma keys_stop : forall l s, keys (sets (fold_left (fun s e => stop_set e s) l s)) = keys (sets s).
Proof.
  induction l as [|e l IH]; cbn [fold_left]; intros s; [reflexivity|]. rewrite IH.
  unfold stop_set. destruct (lookup (sets s) (en_handle e)) eqn:L; [|reflexivity]. le_simpl. exact (keys_of_put _ _ _ _ L).
Qed.

Lemma ext_enable_sets : forall now on l s s' st, set_ext_enable aes rng now on l s = Done s' st ->
  keys (sets s') = keys (sets s)
  /\ forall x, change cfg s now x (Command (SetExtEnable on l)) (Some st) (lookup (sets s) x) (lookup (sets s') x).
Proof.
  unfold set_ext_enable, select_extended. intros now on l s s' st H.
  assert (forall q, st <> SUCCESS -> sets q = sets s -> s' = q -> keys (sets s') = keys (sets s)
    /\ forall x, change cfg s now x (Command (SetExtEnable on l)) (Some st) (lookup (sets s) x) (lookup (sets s') x)) as SAME.
  { intros q NS E ->. rewrite E. split; [reflexivity|]. intros x. apply ch_same. cbn [leaves]. now destruct st. }
  destruct (legacy_used s); [injection H as <- <-; eapply SAME; [discriminate| |]; reflexivity|].
  set (s1 := with_extended_used true s) in *. assert (sets s1 = sets s) as S1 by reflexivity. clearbody s1.
  destruct (check_handles s1 [] l) eqn:C; try discriminate.
  2:{ injection H as <- <-. eapply SAME; [|exact S1|reflexivity]. clear - C.
      assert (forall st used, check_handles s1 used l = CheckError st -> st <> SUCCESS) as G.
      { clear. induction l as [|e l IH]; cbn [check_handles]; intros st used H; [discriminate|].
        destruct (255 <=? _); [discriminate|]. destruct (mem _ _); [injection H as <-; discriminate|].
        destruct (negb _); [injection H as <-; discriminate|]. eauto. }
      exact (G _ _ C). }
  apply check_handles_ok in C as [ND ALL]. destruct (negb on && is_empty l) eqn:B.
  { apply andb_true_iff in B as [B1 B2]. apply negb_true_iff in B1. apply is_empty_true in B2. subst on l.
    injection H as <- <-. le_simpl. rewrite <- S1. split; [unfold keys; rewrite map_map; reflexivity|].
    intros x. rewrite lookup_map. destruct (lookup (sets s1) x) as [a|]; cbn [option_map].
    - apply ch_stop. now right.
    - now apply ch_absent. }
  destruct (is_empty l) eqn:EM; [injection H as <- <-; eapply SAME; [discriminate|exact S1|reflexivity]|].
  destruct on; cbn [negb] in H.
  - destruct (prepare_sets aes rng l s1) as [s2 r] eqn:P. destruct (prepare_sets_sets _ _ _ _ P) as (O & OK & NS).
    rewrite S1 in *. destruct O as [K O]. destruct r as [st'|].
    + injection H as <- <-. split; [exact K|]. intros x. specialize (O x).
      destruct (lookup (sets s) x) as [a|].
      * destruct O as (ad & t & -> & _). apply ch_addresses. congruence.
      * rewrite O. apply ch_same. cbn [leaves]. destruct st'; reflexivity || congruence.
    + injection H as <- <-. rewrite keys_start. split; [exact K|]. intros x. specialize (O x).
      pose proof (lookup_start now l s2 x ND) as L. destruct (find (fun e => en_handle e =? x) l) as [e|] eqn:F.
      * apply find_some in F as [F1 F2]. apply N.eqb_eq in F2. rewrite L.
        destruct (lookup (sets s) x) as [a|] eqn:LA.
        -- destruct O as (ad & t & -> & _). cbn [option_map]. apply ch_start; [exact F1|exact F2|].
           apply (OK eq_refl e a F1). now rewrite F2.
        -- exfalso. destruct (ALL e F1) as [HS _]. rewrite F2, has_lookup, LA in HS. discriminate.
      * rewrite L. assert (~ In x (map en_handle l)) as NI.
        { intros IN. apply in_map_iff in IN as (e & E & IN). apply (find_none _ _ F) in IN. apply N.eqb_neq in IN. auto. }
        destruct (lookup (sets s) x) as [a|].
        -- destruct O as (ad & t & -> & A). destruct (A NI) as [-> ->]. rewrite new_addresses_same.
           apply ch_same. cbn [leaves]. apply mem_false in NI. now rewrite NI, EM.
        -- rewrite O. apply ch_same. cbn [leaves]. apply mem_false in NI. now rewrite NI, EM.
  - injection H as <- <-. rewrite keys_stop, S1. split; [reflexivity|]. intros x. rewrite lookup_stop, S1.
    destruct (mem x (map en_handle l)) eqn:M.
    + destruct (lookup (sets s) x) as [a|] eqn:LA; cbn [option_map].
      * apply ch_stop. left. now apply mem_spec.
      * exfalso. apply mem_spec in M. apply in_map_iff in M as (e & E & IN). destruct (ALL e IN) as [HS _].
        rewrite S1, E, has_lookup, LA in HS. discriminate.
    + apply ch_same. cbn [leaves]. now rewrite M, EM.
Qed.

(** The handles of the sets are distinct *)
Lemma sets_nodup_step : forall now s o s' st out, step now s o = Ok s' st out ->
  NoDup (keys (sets s)) -> NoDup (keys (sets s')).
Proof.
  intros now s o s' st out H ND. destruct (touches o PSets) eqn:T; [|now rewrite (step_sets_same _ _ _ _ _ _ H T)].
  destruct o as [c|p|].
  - destruct c; try discriminate; cbn [LeHost.step] in H;
      try (unfold_step H; crack H; try discriminate; ok H; le_simpl;
           first [exact ND | constructor | now apply nodup_put | now apply nodup_erase]).
    cbn [run_command] in H. destruct (set_ext_enable _ _ _ _ _ _) eqn:E; [|discriminate]. ok H.
    apply ext_enable_sets in E as [E _]. now rewrite E.
  - destruct p; try discriminate. apply receive_connect_sets in H as [_ [->|(h & a & _ & -> & _)]]; [exact ND|now apply nodup_put].
  - apply tick_sets in H as [_ [o H]]. now rewrite (keys_advertise _ _ _ _ _ H).
Qed.

Ltac untouched := apply ch_same; cbn [leaves]; try (rewrite negb_true_iff, N.eqb_neq; congruence); reflexivity.

Ltac one_set H :=
  unfold_step H;
  match type of H with context [lookup (sets ?s) ?h] => destruct (lookup (sets s) h) as [b|] eqn:L end.

Theorem step_changes : forall now s o s' st out, step now s o = Ok s' st out -> NoDup (keys (sets s)) ->
  forall x, change cfg s now x o st (lookup (sets s) x) (lookup (sets s') x).
Proof.
  intros now s o s' st out H ND x.
  destruct (touches o PSets) eqn:T.
  2:{ rewrite (step_sets_same _ _ _ _ _ _ H T). apply ch_same. destruct o as [c|p|]; [|destruct p|]; try reflexivity; try discriminate.
      destruct c; try discriminate; reflexivity. }
  destruct o as [c|p|].
  2:{ destruct p; try discriminate. apply receive_connect_sets in H as [-> [->|(h & a & IN & -> & B1 & B2 & B3)]]; [now apply ch_same|].
      rewrite lookup_put. destruct (N.eqb_spec x h) as [->|NE]; [|now apply ch_same].
      rewrite (in_lookup_nodup _ _ _ ND IN). now apply ch_connect. }
  2:{ apply tick_sets in H as [-> [o H]]. apply (lookup_advertise _ _ _ _ _ x) in H.
      destruct (lookup (sets s) x) as [a|]; [destruct H as (a' & o' & E & ->); eapply ch_tick; exact E|rewrite H; apply ch_tick_none]. }
  destruct c; try discriminate; cbn [LeHost.step] in H.
  - cbn [run_command] in H. unfold reset, loud in H. ok H. apply ch_reset.
  - one_set H; [|ok H; untouched]. destruct (enabled b) eqn:EN; ok H; [untouched|]. le_simpl. rewrite lookup_put.
    destruct (N.eqb_spec x h) as [->|]; [rewrite L; now apply ch_random|untouched].
  - (* parameters *)
    unfold_step H. destruct (legacy_used s); [ok H; untouched|]. le_simpl_in H.
    set (b := match lookup (sets s) h with Some a => a | None => new_set h end) in H.
    destruct (_ && _) eqn:C1 in H; [ok H; untouched|].
    destruct (enabled b) eqn:C2 in H; [ok H; untouched|].
    destruct (legacy_pdus (e_props e) && negb (legal_legacy _)) eqn:C3 in H; [ok H; untouched|].
    destruct (negb (can_have_data _) && _) eqn:C4 in H; [ok H; untouched|].
    destruct (negb (scannable _) && _) eqn:C5 in H; [ok H; untouched|].
    destruct (legacy_pdus (e_props e) && (_ || _)) eqn:C6 in H; [ok H; untouched|].
    destruct (negb (legacy_pdus (e_props e)) && connectable _ && scannable _) eqn:C7 in H; [ok H; untouched|].
    destruct (negb (legacy_pdus (e_props e)) && connectable _ && _ && _) eqn:C8 in H; [ok H; untouched|].
    destruct ((e_min e <? 32) || _) eqn:C9 in H; [ok H; untouched|].
    destruct (e_max e <? e_min e) eqn:C10 in H; [ok H; untouched|].
    destruct (N.land (e_map e) 7 =? 0) eqn:C11 in H; [ok H; untouched|].
    destruct (legacy_pdus (e_props e) && negb (primary_is_1m _)) eqn:C12 in H; [ok H; untouched|].
    destruct (periodic_on b && _) eqn:C13 in H; [ok H; untouched|].
    destruct (negb (legacy_pdus (e_props e)) && (_ || _)) eqn:C14 in H; [ok H; untouched|].
    ok H. le_simpl. rewrite lookup_put. destruct (N.eqb_spec x h) as [->|]; [|untouched].
    apply (ch_params _ _ _ _ _ b); [reflexivity|]. unfold params_ok.
    assert (32 <= e_min e <= e_max e) as RANGE.
    { apply orb_false_iff in C9 as [C9 C9']. apply N.ltb_ge in C9. apply N.ltb_ge in C10. clear - C9 C10. lia. }
    destruct (e_props e) as [pc ps pd ph pl pa pt]. le_simpl_all. unfold max_legacy_pdu, max_extended_pdu in *.
    repeat match goal with |- _ /\ _ => split end.
    all: intros; subst; cbn [negb andb orb] in *.
    all: try assumption; try (now apply RANGE); try (now apply N.eqb_neq).
    all: try (now apply negb_false_iff).
    + rewrite H in C4. cbn [negb andb] in C4. apply negb_false_iff in C4. now apply is_empty_true.
    + apply negb_false_iff in C5. now apply is_empty_true.
    + apply orb_false_iff in C6 as [C6 C6']. apply N.ltb_ge in C6. apply N.ltb_ge in C6'. auto.
    + destruct (e_primary e); [reflexivity|discriminate].
    + rewrite H in C13. cbn [andb] in C13. apply orb_false_iff in C13 as [C13 D1]. apply orb_false_iff in C13 as [C13 D2].
      apply orb_false_iff in C13 as [C13 D3]. auto.
    + apply orb_false_iff in C14 as [C14 C14']. apply N.ltb_ge in C14. apply N.ltb_ge in C14'. auto.
  - (* data *)
    unfold_step H. destruct (legacy_used s); [ok H; untouched|]. le_simpl_in H.
    destruct (lookup (sets s) h) as [b|] eqn:L; [|ok H; untouched].
    destruct (negb (can_have_data _)) eqn:C1 in H; [ok H; untouched|].
    destruct (_ && (_ || _)) eqn:C2 in H; [ok H; untouched|].
    destruct (is_unchanged _ && _) eqn:C3 in H; [ok H; untouched|].
    destruct (is_fragment _ && _) eqn:C4 in H; [ok H; untouched|].
    destruct (_ && is_fragment _) eqn:C5 in H; [ok H; untouched|].
    destruct (cfg_max_data cfg <? _) eqn:C6 in H.
    { ok H. le_simpl. rewrite lookup_put. destruct (N.eqb_spec x h) as [->|]; [|untouched].
      rewrite L. apply ch_data_discarded. now left. }
    destruct (_ && _) eqn:C7 in H.
    { ok H. le_simpl. rewrite lookup_put. destruct (N.eqb_spec x h) as [->|]; [|untouched].
      rewrite L. apply ch_data_discarded. now right. }
    ok H. le_simpl. rewrite lookup_put. destruct (N.eqb_spec x h) as [->|]; [|untouched]. rewrite L.
    apply negb_false_iff in C1. apply N.ltb_ge in C6. apply ch_data; try assumption.
    + intros B. rewrite B in C2. cbn [andb] in C2. apply orb_false_iff in C2 as [C2 C2'].
      apply negb_false_iff in C2. apply N.ltb_ge in C2'. unfold max_legacy_pdu in C2'. destruct o; try discriminate. auto.
    + intros B. rewrite B in C5. cbn [andb] in C5. destruct o; try discriminate; auto.
    + intros B. rewrite B in C7. cbn [andb] in C7. now apply N.ltb_ge in C7.
  - (* scan response *)
    unfold_step H. destruct (legacy_used s); [ok H; untouched|]. le_simpl_in H.
    destruct (lookup (sets s) h) as [b|] eqn:L; [|ok H; untouched].
    destruct (negb (scannable _) && _) eqn:C1 in H; [ok H; untouched|].
    destruct (_ && (_ || _)) eqn:C2 in H; [ok H; untouched|].
    destruct (negb (is_complete _) && _) eqn:C3 in H; [ok H; untouched|].
    destruct (_ && negb (is_complete _)) eqn:C4 in H; [ok H; untouched|].
    destruct (_ && is_empty _) eqn:C5 in H; [ok H; untouched|].
    destruct (is_unchanged _) eqn:C8 in H; [ok H; untouched|].
    destruct (cfg_max_data cfg <? _) eqn:C6 in H.
    { ok H. le_simpl. rewrite lookup_put. destruct (N.eqb_spec x h) as [->|]; [|untouched].
      rewrite L. apply ch_scan_discarded. now left. }
    destruct (max_extended_pdu <? _) eqn:C7 in H.
    { ok H. le_simpl. rewrite lookup_put. destruct (N.eqb_spec x h) as [->|]; [|untouched].
      rewrite L. apply ch_scan_discarded. now right. }
    ok H. le_simpl. rewrite lookup_put. destruct (N.eqb_spec x h) as [->|]; [|untouched]. rewrite L.
    apply N.ltb_ge in C6. apply N.ltb_ge in C7. apply ch_scan; try assumption.
    + intros ->. discriminate.
    + intros B. rewrite B in C1. cbn [negb andb] in C1. apply negb_false_iff in C1. now apply is_empty_true.
    + intros B1 B2. rewrite B1, B2 in C2. cbn [andb] in C2. apply orb_false_iff in C2 as [C2 C2'].
      apply negb_false_iff in C2. apply N.ltb_ge in C2'. unfold max_legacy_pdu in C2'. destruct o; try discriminate. auto.
    + intros B. rewrite B in C4. cbn [andb] in C4. destruct o; try discriminate; auto.
    + intros NC ->. destruct o; try discriminate. now elim NC.
    + intros B1 B2 B3 ->. rewrite B1, B2, B3 in C5. discriminate.
  - cbn [run_command] in H. destruct (set_ext_enable _ _ _ _ _ _) eqn:E; [|discriminate]. ok H. now apply ext_enable_sets.
  - one_set H; [|ok H; untouched]. destruct (enabled b) eqn:EN; ok H; [untouched|]. le_simpl. rewrite lookup_erase.
    destruct (N.eqb_spec x h) as [->|]; [rewrite L; now apply ch_remove|untouched].
  - unfold_step H. destruct (existsb _ _) eqn:EX; ok H; [untouched|]. le_simpl. cbn [lookup]. apply ch_clear.
    intros b L. apply lookup_pair in L. destruct (enabled b) eqn:EN; [|reflexivity].
    assert (existsb (fun kv => enabled (snd kv)) (sets s) = true) as X; [|congruence]. apply existsb_exists. eauto.
  - (* periodic parameters *)
    one_set H; [|ok H; untouched].
    destruct (_ || _) eqn:C1 in H; [ok H; untouched|].
    destruct (connectable _ || _ || _ || _) eqn:C2 in H; [ok H; untouched|].
    destruct (periodic_on b) eqn:C3 in H; [ok H; untouched|].
    destruct (_ <? _) in H; [ok H; untouched|]. ok H. le_simpl. rewrite lookup_put.
    destruct (N.eqb_spec x h) as [->|]; [|untouched]. rewrite L.
    repeat match goal with X : _ || _ = false |- _ => apply orb_false_iff in X as [X ?] end.
    repeat match goal with X : (_ <? _) = false |- _ => apply N.ltb_ge in X end.
    apply ch_pparams; [clear - C1 H0 H1 H2; lia| |assumption]. unfold periodic_props. auto.
  - (* periodic data *)
    one_set H; [|ok H; untouched].
    destruct (_ =? 0) eqn:C1 in H; [ok H; untouched|].
    destruct (_ && is_fragment _) eqn:C2 in H; [ok H; untouched|].
    destruct (is_empty _ && _) eqn:C3 in H; [ok H; untouched|].
    destruct (is_unchanged _ && _) eqn:C4 in H; [ok H; untouched|].
    destruct (cfg_max_data cfg <? _) eqn:C6 in H.
    { ok H. le_simpl. rewrite lookup_put. destruct (N.eqb_spec x h) as [->|]; [|untouched].
      rewrite L. apply ch_periodic_discarded. now left. }
    destruct (max_extended_pdu <? _) eqn:C7 in H.
    { ok H. le_simpl. rewrite lookup_put. destruct (N.eqb_spec x h) as [->|]; [|untouched].
      rewrite L. apply ch_periodic_discarded. now right. }
    ok H. le_simpl. rewrite lookup_put. destruct (N.eqb_spec x h) as [->|]; [|untouched]. rewrite L.
    apply N.ltb_ge in C6. apply N.ltb_ge in C7. apply N.eqb_neq in C1. apply ch_periodic; try assumption.
    intros B. rewrite B in C2. cbn [andb] in C2. destruct o; try discriminate; auto.
  - (* periodic enable *)
    one_set H; [|ok H; untouched]. destruct on; cbn [negb] in H.
    + destruct (partial _) eqn:C1 in H; [ok H; untouched|].
      destruct (_ =? 0) eqn:C2 in H; [ok H; untouched|].
      destruct (_ <? _) in H; [ok H; untouched|].
      destruct (connectable _ || _ || _ || _) eqn:C3 in H; [ok H; untouched|].
      destruct (_ && _) eqn:C4 in H; [ok H; untouched|]. ok H. le_simpl. rewrite lookup_put.
      destruct (N.eqb_spec x h) as [->|]; [|untouched]. rewrite L.
      repeat match goal with X : _ || _ = false |- _ => apply orb_false_iff in X as [X ?] end.
      apply N.eqb_neq in C2. apply ch_penable; try assumption; [unfold periodic_props; auto|].
      intros ->. cbn [andb] in C4. now apply negb_false_iff in C4.
    + ok H. le_simpl. rewrite lookup_put. destruct (N.eqb_spec x h) as [->|]; [rewrite L; apply ch_pdisable|untouched].
Qed.

End WithController.
