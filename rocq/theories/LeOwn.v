(** The own addresses of the LE controller. Proofs. *)
From Verif Require Import Prelude Address Rpa RpaProofs Table LeTypes LeAdvertise LeLists LeScan LeInitiate LeHost LeTac LeFrame LeStep LeSets LeOutputs LeHistory.
From Verif Require Import LeListsSpec LeListsProofs LeAdvertSpec LeAdvertProofs LeAdvertSends LeInitProofs LeFilterSpec LeFilter LeFilterMore LeFilterInv LeFilterAdv LeFilterInit LeOwnSpec.
Open Scope N_scope.

Section WithController.
Variable aes : list N -> list N -> list N.
Variable rng : N -> N.
Variable cfg : config.
Hypothesis cipher : cipher_ok aes.
Notation step := (step aes rng cfg).
Notation history := (history aes rng cfg).
Notation who := (who aes).
Notation obeys := (obeys aes).

(** * Choosing an address *)

Definition answers (h : list entry) (peer : address_with_type) (r : option address_with_type) : Prop :=
  match r with
  | Some a => exists irk, key_for h peer irk /\ matches_irk aes a irk = true
  | None => forall irk, ~ key_for h peer irk
  end.
Definition knows (h : list entry) (l : list resolving_entry) : Prop := forall x, resolving_holds h x <-> In x (map ident l).
Lemma knows_history h s : history h s -> knows h (resolving s).
Proof. intros H x. exact (resolving_replay _ _ _ _ _ H x). Qed.
Lemma knows_touched h l l' : map ident l' = map ident l -> knows h l -> knows h l'.
Proof. unfold knows. intros -> K. exact K. Qed.

Lemma generate_for_answers l a r0 r1 r2 r3 l' r : generate_for aes l a true r0 r1 r2 r3 = (l', r) ->
  match r with
  | Some x => exists e, In e l /\ peer_identity_address e = awt_addr a /\ peer_identity_type e = to_peer_type (awt_type a)
      /\ matches_irk aes x (local_irk e) = true
  | None => forall e, In e l -> ~ (peer_identity_address e = awt_addr a /\ peer_identity_type e = to_peer_type (awt_type a))
  end.
Proof.
  revert l'. induction l as [|e l IH]; intros l' E; cbn [generate_for] in E; [injection E as <- <-; intros ? []|].
  destruct (list_eqb (awt_addr a) (peer_identity_address e) && peer_type_eqb (to_peer_type (awt_type a)) (peer_identity_type e)) eqn:M.
  - injection E as _ <-. apply andb_true_iff in M as [M1 M2]. apply list_eqb_eq in M1. exists e. split; [now left|]. split; [auto|]. split.
    + destruct (to_peer_type (awt_type a)), (peer_identity_type e); auto; discriminate.
    + destruct cipher as [C1 C2]. exact (proj2 (generated_matches aes C1 C2 (local_irk e) r0 r1 r2 r3)).
  - destruct (generate_for aes l a true r0 r1 r2 r3) as [l'' r'] eqn:E2. injection E as <- ->. specialize (IH _ eq_refl). destruct r as [x|].
    + destruct IH as (f & I & F). exists f. split; [now right|exact F].
    + intros f [<-|I]; [|now apply IH]. intros [X Y]. apply andb_false_iff in M as [M|M].
      * rewrite <- X, list_eqb_refl in M. discriminate.
      * rewrite Y in M. destruct (to_peer_type (awt_type a)); discriminate.
Qed.
Lemma generate_answers h peer s s' r : knows h (resolving s) -> generate aes rng peer true s = (s', r) -> answers h peer r.
Proof.
  unfold generate. intros K E. destruct (generate_for _ _ _ _ _ _ _ _) as [l q] eqn:G. injection E as <- ->.
  apply generate_for_answers in G. unfold answers, key_for.
  assert (T : match awt_type peer with PUBLIC_DEVICE | PUBLIC_IDENTITY => PEER_PUBLIC | _ => PEER_RANDOM end = to_peer_type (awt_type peer)) by (destruct (awt_type peer); reflexivity).
  destruct r as [x|].
  - destruct G as (e & I & G1 & G2 & G3). exists (local_irk e). split; [|exact G3]. exists (peer_irk e). apply K. rewrite T, <- G1, <- G2. exact (in_map ident _ _ I).
  - intros irk (p & X). apply K in X. apply in_map_iff in X as (e & X & I). unfold ident in X. injection X as X1 X2 X3 X4.
    apply (G e I). split; [exact X2|]. now rewrite X1, T.
Qed.
Lemma choose_obeys h peer o public random r a : answers h peer r -> choose_own o public random r = Some a -> obeys h peer public random o a.
Proof.
  unfold choose_own. intros A C. destruct (list_eqb random empty_address) eqn:E.
  - destruct o; try discriminate.
    + injection C as <-. constructor.
    + destruct r as [x|]; injection C as <-; [destruct A as (irk & K & M); eapply obeys_key; eauto|now apply obeys_else_public].
    + destruct r as [x|]; [|discriminate]; injection C as <-. destruct A as (irk & K & M). eapply obeys_key; eauto.
  - assert (NE : random <> empty_address) by (intros ->; rewrite list_eqb_refl in E; discriminate). destruct o.
    + injection C as <-. constructor.
    + injection C as <-. now constructor.
    + destruct r as [x|]; injection C as <-; [destruct A as (irk & K & M); eapply obeys_key; eauto|now apply obeys_else_public].
    + destruct r as [x|]; injection C as <-; [destruct A as (irk & K & M); eapply obeys_key; eauto|now apply obeys_else_random].
Qed.
Lemma scanning_obeys h peer s r a : answers h peer r -> scanning_address s r = Some a ->
  obeys h peer (public_address s) (random_address s) (scan_own (scan s)) a.
Proof.
  intros A C. apply (choose_obeys _ _ _ _ _ r); [exact A|]. unfold scanning_address in C. unfold choose_own.
  destruct (list_eqb (random_address s) empty_address); destruct (scan_own (scan s)); try discriminate; try exact C.
  destruct r; exact C.
Qed.
Lemma initiating_obeys h peer s r a : answers h peer r -> initiating_address s r = Some a ->
  obeys h peer (public_address s) (random_address s) (init_own (init s)) a.
Proof.
  intros A C. apply (choose_obeys _ _ _ _ _ r); [exact A|]. unfold initiating_address in C. unfold choose_own.
  destruct (list_eqb (random_address s) empty_address); destruct (init_own (init s)); try discriminate; try exact C.
  destruct r; exact C.
Qed.

(** * What the host asked for *)

Lemma public_kept now s o s' st out : step now s o = Ok s' st out -> public_address s' = public_address s.
Proof.
  intros H. destruct o as [c|a|]; cbn [LeHost.step] in H.
  - destruct c; (go H; frames; le_simpl; le_simpl_all; (reflexivity || congruence)).
  - destruct a.
    1-2: unfold receive, of_effect, receive_legacy_pdu, receive_extended_pdu in H;
      destruct (then_also _ _) as [s1 o1| |] eqn:E; try discriminate; injection H as <- <- <-;
      apply then_also_inv in E; destruct E as (s2 & o2 & o3 & E1 & E2 & ->); frames; le_simpl; le_simpl_all; (reflexivity || congruence).
    all: go H; nexts; frames; le_simpl; le_simpl_all; (reflexivity || congruence).
  - apply tick_frame in H. destruct H as (a & m & sc & ->). reflexivity.
Qed.

Lemma random_history h s : history h s -> random_given h = random_address s.
Proof.
  intros H. induction H as [a|h s now o s' st out H IH S]; [reflexivity|].
  destruct (touches o PRandom) eqn:T.
  - destruct o as [c|p|]; [|destruct p; discriminate|discriminate]. destruct c; try discriminate; cbn [LeHost.step run_command] in S.
    + unfold reset, loud in S. ok S. reflexivity.
    + unfold quiet, set_random_address in S. destruct (_ || _); [ok S; exact IH|]. destruct (list_eqb _ _); ok S; [exact IH|reflexivity].
  - pose proof (step_same _ _ _ _ _ _ _ _ _ S PRandom T) as E. cbn [same] in E. rewrite E, <- IH.
    cbn [random_given what status_of]. destruct o as [c|p|]; try reflexivity. destruct c; try reflexivity; discriminate.
Qed.
Lemma legacy_own_history h s : history h s -> legacy_own_given h = l_own (legacy s).
Proof.
  intros H. induction H as [addr|h s now o s' st out H IH S]; [reflexivity|].
  assert (SAME : touches o PLegacy = false \/ (forall a b c d e f g i, o <> Command (SetAdvParameters a b c d e f g i)) /\ o <> Command Reset ->
    legacy_own_given (Entry now o st out :: h) = legacy_own_given h).
  { intros [T|[N1 N2]]; cbn [legacy_own_given what status_of]; destruct o as [c|p|]; try reflexivity; destruct c; try discriminate; try reflexivity;
      try (now elim N2); now elim (N1 _ _ _ _ _ _ _ _ eq_refl). }
  destruct (touches o PLegacy) eqn:T.
  2:{ pose proof (step_same _ _ _ _ _ _ _ _ _ S PLegacy T) as E. cbn [same] in E. rewrite E, SAME by now left. exact IH. }
  destruct o as [c|p|].
  - destruct c; try discriminate.
    + cbn [LeHost.step run_command] in S. unfold reset, loud in S. ok S. reflexivity.
    + cbn [LeHost.step run_command] in S. unfold quiet, set_adv_parameters, select_legacy in S.
      destruct (extended_used s) in S; [ok S; exact IH|]. cbv zeta in S. le_simpl_in S.
      do 4 (destruct (_ : bool) in S at 1; [ok S; exact IH|]). ok S. cbn [legacy_own_given what status_of]. le_simpl. reflexivity.
    + rewrite SAME by (right; split; [intros|]; discriminate). cbn [LeHost.step] in S. unfold_step S. destruct (extended_used s); ok S; exact IH.
    + rewrite SAME by (right; split; [intros|]; discriminate). cbn [LeHost.step] in S. unfold_step S. destruct (extended_used s); ok S; exact IH.
    + rewrite SAME by (right; split; [intros|]; discriminate). cbn [LeHost.step] in S. unfold_step S.
      rewrite IH. crack S; try discriminate; ok S; frames; le_simpl; le_simpl_all; auto.
  - rewrite SAME by (right; split; [intros|]; discriminate). rewrite IH.
    destruct p; try discriminate. cbn [LeHost.step receive] in S. unfold of_effect, receive_connect, legacy_connect_request in S.
    crack S; try discriminate; repeat match goal with E : inl _ = inl _ |- _ => injection E as <- | E : inr _ = inr _ |- _ => injection E as <- end.
    all: try discriminate.
    all: try ok S. all: repeat match goal with E : Next _ _ = Next _ _ |- _ => injection E as <- <- end.
    all: frames; le_simpl; le_simpl_all; auto.
  - rewrite SAME by (right; split; [intros|]; discriminate). rewrite IH.
    destruct (tick_legacy _ _ _ _ _ _ _ _ S) as (e & n & -> & _). auto.
Qed.

Definition set_asks (x : N) (h : list entry) (o : option adv_set) : Prop :=
  match o with
  | Some a => set_random_given x h = match set_random a with Some r => r | None => empty_address end
      /\ (forall e, set_given x h = Some e -> own a = e_own e)
  | None => set_random_given x h = empty_address
  end.
Lemma leaves_random x now o st out h : leaves x o st = true -> set_random_given x (Entry now o st out :: h) = set_random_given x h.
Proof.
  intros L. cbn [set_random_given what status_of].
  destruct o as [c|p|]; [|reflexivity|reflexivity]. destruct st as [st|]; [|destruct c; reflexivity || discriminate].
  destruct c; try discriminate; cbn [leaves] in L; try reflexivity;
    destruct st; try reflexivity; try discriminate; apply negb_true_iff in L; rewrite ?L; reflexivity.
Qed.
Lemma set_asks_history h s : history h s -> forall x, set_asks x h (lookup (sets s) x).
Proof.
  intros H x. induction H as [addr|h s now o s' st out H IH S]; [reflexivity|].
  pose proof (step_changes _ _ _ _ _ _ _ _ _ S (sets_nodup _ _ _ _ _ H) x) as C.
  destruct C; try (unfold set_asks; rewrite leaves_random, leaves_given by assumption; exact IH);
    unfold set_asks in *; cbn [set_random_given set_given what status_of]; rewrite ?N.eqb_refl; try reflexivity; try exact IH.
  - destruct IH as [_ IH2]. split; [reflexivity|exact IH2].
  - subst a. destruct o as [a|].
    + destruct IH as [IH1 _]. split; [exact IH1|]. intros f F. injection F as <-. reflexivity.
    + split; [exact IH|]. intros f F. injection F as <-. reflexivity.
  - match goal with AD : advertise_set _ _ _ = _ |- _ => destruct (advertise_set_frame _ _ _ _ _ AD) as (? & ? & ? & ? & -> & _) end. exact IH.
Qed.

(** * Advertising *)

Lemma begun_before c h h0 e : begun c h h0 -> begun c (e :: h) h0.
Proof. intros (h1 & f & d & -> & F). exists (e :: h1), f, d. split; [reflexivity|exact F]. Qed.
Lemma begun_now (c : command -> Prop) d now st out h : c d -> begun c (Entry now (Command d) st out :: h) h.
Proof. intros C. eexists [], _, d. split; [reflexivity|]. auto. Qed.

Definition legacy_begun (h : list entry) (s : le) : Prop :=
  l_enabled (legacy s) = true -> exists h0, begun starts_legacy h h0 /\
    obeys h0 (peer_device_address (l_peer (legacy s)) (l_peer_kind (legacy s))) (public_address s) (random_address s) (l_own (legacy s)) (l_address (legacy s)).

Lemma legacy_enable_obeys h s now s' st out : history h s -> step now s (Command (SetAdvEnable true)) = Ok s' (Some st) out ->
  (st <> SUCCESS /\ legacy s' = legacy s) \/
  (st = SUCCESS /\ l_enabled (legacy s') = true /\ l_own (legacy s') = l_own (legacy s) /\ l_peer (legacy s') = l_peer (legacy s) /\ l_peer_kind (legacy s') = l_peer_kind (legacy s) /\
   obeys h (peer_device_address (l_peer (legacy s)) (l_peer_kind (legacy s))) (public_address s) (random_address s) (l_own (legacy s)) (l_address (legacy s'))).
Proof.
  intros H S. cbn [LeHost.step run_command] in S. unfold quiet, set_adv_enable, select_legacy in S.
  destruct (extended_used s); [ok S; left; split; [discriminate|reflexivity]|]. cbn [negb] in S. le_simpl_in S.
  destruct (generate aes rng _ true _) as [s1 r] eqn:G.
  pose proof (generate_answers h _ (with_legacy_used true s) _ _ (knows_history _ _ H) G) as A.
  apply generate_frame in G as (l & p & -> & _). le_simpl_in S.
  destruct (choose_own _ _ _ _) as [a|] eqn:C; [|ok S; left; split; [discriminate|reflexivity]]. pose proof (choose_obeys _ _ _ _ _ _ _ A C) as O. right.
  destruct (l_type (legacy s)); le_simpl_in S;
    try (destruct (generate aes rng _ false _) as [s2 r2] eqn:G2; apply generate_frame in G2 as (l2 & p2 & -> & _)); ok S; le_simpl; repeat (split; [reflexivity|]); exact O.
Qed.

Lemma legacy_begun_history h s : history h s -> legacy_begun h s.
Proof.
  intros H. induction H as [addr|h s now o s' st out H IH S]; [discriminate|]. unfold legacy_begun in *. intros EN.
  rewrite (public_kept _ _ _ _ _ _ S).
  assert (KEEP : legacy s' = legacy s -> random_address s' = random_address s -> exists h0, begun starts_legacy (Entry now o st out :: h) h0 /\
    obeys h0 (peer_device_address (l_peer (legacy s')) (l_peer_kind (legacy s'))) (public_address s) (random_address s') (l_own (legacy s')) (l_address (legacy s'))).
  { intros E1 E2. rewrite E1 in EN. destruct (IH EN) as (h0 & B & O). exists h0. split; [now apply begun_before|]. now rewrite E1, E2. }
  destruct (touches o PLegacy) eqn:T.
  2:{ pose proof (step_same _ _ _ _ _ _ _ _ _ S PLegacy T) as E. cbn [same] in E. destruct (touches o PRandom) eqn:TR.
      2:{ exact (KEEP E (step_same _ _ _ _ _ _ _ _ _ S PRandom TR)). }
      destruct o as [c|p|]; [|destruct p; discriminate|discriminate]. destruct c; try discriminate. cbn [LeHost.step run_command] in S. unfold quiet, set_random_address in S.
      rewrite E in EN. rewrite EN in S. cbn [orb] in S. ok S. now apply KEEP. }
  destruct (touches o PRandom) eqn:TR.
  { destruct o as [c|p|]; [|destruct p; discriminate|discriminate]. destruct c; try discriminate. cbn [LeHost.step run_command] in S. unfold reset, loud in S. ok S. discriminate. }
  pose proof (step_same _ _ _ _ _ _ _ _ _ S PRandom TR) as RK. cbn [same] in RK.
  assert (MOST : l_address (legacy s') = l_address (legacy s) -> l_own (legacy s') = l_own (legacy s) -> l_peer (legacy s') = l_peer (legacy s) ->
    l_peer_kind (legacy s') = l_peer_kind (legacy s) -> (l_enabled (legacy s') = true -> l_enabled (legacy s) = true) ->
    exists h0, begun starts_legacy (Entry now o st out :: h) h0 /\
    obeys h0 (peer_device_address (l_peer (legacy s')) (l_peer_kind (legacy s'))) (public_address s) (random_address s') (l_own (legacy s')) (l_address (legacy s'))).
  { intros -> -> -> -> E. destruct (IH (E EN)) as (h0 & B & O). exists h0. split; [now apply begun_before|]. now rewrite RK. }
  destruct o as [c|p|].
  - destruct c; try discriminate.
    + apply KEEP; [|exact RK]. cbn [LeHost.step run_command] in S. unfold quiet, set_adv_parameters, select_legacy in S.
      destruct (extended_used s) in S; [ok S; reflexivity|]. cbv zeta in S. le_simpl_in S.
      destruct (l_enabled (legacy s)) eqn:LE; [ok S; reflexivity|].
      do 3 (destruct (_ : bool) in S at 1; [ok S; reflexivity|]). ok S. le_simpl_in EN. rewrite LE in EN. discriminate.
    + cbn [LeHost.step] in S. unfold_step S. destruct (extended_used s); ok S; [now apply KEEP|]. apply MOST; le_simpl; auto.
    + cbn [LeHost.step] in S. unfold_step S. destruct (extended_used s); ok S; [now apply KEEP|]. apply MOST; le_simpl; auto.
    + destruct on.
      * destruct st as [st|]; [|cbn [LeHost.step run_command] in S; unfold quiet in S; destruct (set_adv_enable _ _ _ _ _); discriminate].
        destruct (legacy_enable_obeys _ _ _ _ _ _ H S) as [[_ E]|(-> & _ & E1 & E2 & E3 & O)]; [now apply KEEP|].
        exists h. split; [now apply begun_now|]. rewrite E1, E2, E3, RK. exact O.
      * cbn [LeHost.step] in S. unfold_step S. destruct (extended_used s); ok S; [now apply KEEP|]. le_simpl_in EN. discriminate.
  - destruct p; try discriminate. cbn [LeHost.step receive] in S. unfold of_effect, receive_connect, legacy_connect_request in S.
    crack S; try discriminate; repeat match goal with E : inl _ = inl _ |- _ => injection E as <- | E : inr _ = inr _ |- _ => injection E as <- end.
    all: try discriminate.
    all: try ok S. all: repeat match goal with E : Next _ _ = Next _ _ |- _ => injection E as <- <- end.
    all: frames; apply MOST; le_simpl; le_simpl_all; auto; discriminate.
  - destruct (tick_legacy _ _ _ _ _ _ _ _ S) as (e & n & E & EE). apply MOST; rewrite E; auto.
Qed.

Definition set_sends (h : list entry) (public : list N) (a : adv_set) : Prop :=
  obeys h (peer_device_address (peer a) (peer_kind a)) public (match set_random a with Some r => r | None => empty_address end) (own a) (adv_address a).

Lemma prepare_set_obeys h e s s' r : knows h (resolving s) -> prepare_set aes rng e s = (s', r) ->
  knows h (resolving s') /\ public_address s' = public_address s /\
  (forall x a', lookup (sets s') x = Some a' -> lookup (sets s) x = Some a' \/ x = en_handle e /\ set_sends h (public_address s) a') /\
  (r = None -> forall a', lookup (sets s') (en_handle e) = Some a' -> set_sends h (public_address s) a').
Proof.
  unfold prepare_set. intros K H.
  destruct (lookup (sets s) (en_handle e)) as [a|] eqn:L; [|injection H as <- <-; repeat (split; [auto|]); congruence].
  do 5 (destruct (_ : bool) in H at 1; [injection H as <- <-; repeat (split; [auto|]); discriminate|]).
  destruct (generate aes rng _ true s) as [s1 r1] eqn:G1. pose proof (generate_answers h _ _ _ _ K G1) as A.
  destruct (generate_frame _ _ _ _ _ _ _ G1) as (l1 & p1 & -> & I1). le_simpl_in H.
  destruct (choose_own _ _ _ _) as [addr|] eqn:C.
  2:{ injection H as <- <-. le_simpl. split; [exact (knows_touched _ _ _ I1 K)|]. repeat (split; [auto|]). discriminate. }
  pose proof (choose_obeys _ _ _ _ _ _ _ A C) as O.
  destruct (directed _).
  - destruct (generate aes rng _ false _) as [s2 r2] eqn:G2.
    destruct (generate_frame _ _ _ _ _ _ _ G2) as (l2 & p2 & -> & I2). le_simpl_in I2. injection H as <- <-. le_simpl.
    split; [apply (knows_touched _ _ _ I2), (knows_touched _ _ _ I1 K)|]. split; [reflexivity|]. split.
    + intros x a' LX. rewrite lookup_put in LX. destruct (x =? en_handle e) eqn:X; [|now left]. apply N.eqb_eq in X. injection LX as <-. right. split; [exact X|exact O].
    + intros _ a' LX. rewrite lookup_put, N.eqb_refl in LX. injection LX as <-. exact O.
  - injection H as <- <-. le_simpl.
    split; [apply (knows_touched _ _ _ I1 K)|]. split; [reflexivity|]. split.
    + intros x a' LX. rewrite lookup_put in LX. destruct (x =? en_handle e) eqn:X; [|now left]. apply N.eqb_eq in X. injection LX as <-. right. split; [exact X|exact O].
    + intros _ a' LX. rewrite lookup_put, N.eqb_refl in LX. injection LX as <-. exact O.
Qed.
Lemma prepare_sets_obeys h l : forall s s' r, knows h (resolving s) -> prepare_sets aes rng l s = (s', r) ->
  public_address s' = public_address s /\
  (forall x a', lookup (sets s') x = Some a' -> lookup (sets s) x = Some a' \/ In x (map en_handle l) /\ set_sends h (public_address s) a') /\
  (r = None -> forall x a', In x (map en_handle l) -> lookup (sets s') x = Some a' -> set_sends h (public_address s) a').
Proof.
  induction l as [|e l IH]; cbn [prepare_sets map]; intros s s' r K H.
  - injection H as <- <-. repeat (split; [auto|]). intros _ x a' [].
  - destruct (prepare_set aes rng e s) as [s1 r1] eqn:E. destruct (prepare_set_obeys _ _ _ _ _ K E) as (K1 & P1 & A1 & B1).
    destruct r1 as [st|].
    + injection H as <- <-. split; [exact P1|]. split; [|discriminate]. intros x a' L. destruct (A1 _ _ L) as [?|[-> ?]]; auto. right. split; [now left|assumption].
    + destruct (IH _ _ _ K1 H) as (P2 & A2 & B2). rewrite P1 in *. split; [exact P2|]. split.
      * intros x a' L. destruct (A2 _ _ L) as [L1|[I ?]]; [|right; split; [now right|assumption]].
        destruct (A1 _ _ L1) as [?|[-> ?]]; auto. right. split; [now left|assumption].
      * intros R x a' [<-|I] L; [|exact (B2 R _ _ I L)]. destruct (A2 _ _ L) as [L1|[_ ?]]; [|assumption]. exact (B1 eq_refl _ L1).
Qed.

Definition sets_begun (h : list entry) (s : le) : Prop := forall x a, lookup (sets s) x = Some a -> enabled a = true ->
  exists h0, begun (starts_set x) h h0 /\ set_sends h0 (public_address s) a.

Lemma check_handles_fails s l : forall used st, check_handles s used l = CheckError st -> st <> SUCCESS.
Proof.
  induction l as [|e l IH]; cbn [check_handles]; intros used st H; [discriminate|].
  destruct (255 <=? _); [discriminate|]. destruct (mem _ _); [injection H as <-; discriminate|].
  destruct (negb _); [injection H as <-; discriminate|]. eauto.
Qed.
Lemma set_enable_obeys h s now l s' st out : history h s -> step now s (Command (SetExtEnable true l)) = Ok s' st out ->
  forall x a', lookup (sets s') x = Some a' ->
  (st = Some SUCCESS -> ~ In x (map en_handle l)) /\ lookup (sets s) x = Some a' \/ In x (map en_handle l) /\ set_sends h (public_address s) a'.
Proof.
  intros H S x a' L. cbn [LeHost.step run_command] in S. unfold set_ext_enable, select_extended in S.
  destruct (legacy_used s); [ok S; left; split; [discriminate|exact L]|].
  destruct (check_handles _ [] l) eqn:C; try discriminate; [|ok S; left; split; [intros [= ->]; now apply check_handles_fails in C|exact L]].
  apply check_handles_ok in C as [ND ALL].
  cbn [negb andb] in S. destruct (is_empty l) eqn:EM; [ok S; left; split; [discriminate|exact L]|].
  destruct (prepare_sets aes rng l _) as [s2 r] eqn:P.
  destruct (prepare_sets_obeys h l (with_extended_used true s) _ _ (knows_history _ _ H) P) as (_ & A & B). le_simpl_in A. le_simpl_in B.
  destruct r as [st'|].
  { ok S. destruct (A _ _ L) as [X|X]; [left|now right]. split; [|exact X].
    destruct (prepare_sets_sets _ _ _ _ _ _ P) as (_ & _ & NS). congruence. }
  ok S.
  pose proof (lookup_start now l s2 x ND) as LS. destruct (find (fun e => en_handle e =? x) l) as [e|] eqn:F; rewrite LS in L.
  2:{ destruct (A _ _ L) as [X|X]; [left|now right]. split; [|exact X]. intros _ IN. apply in_map_iff in IN as (e & E & IN). apply (find_none _ _ F) in IN. apply N.eqb_neq in IN. auto. }
  apply find_some in F as [F1 F2]. apply N.eqb_eq in F2. destruct (lookup (sets s2) x) as [b|] eqn:L2; [|discriminate]. injection L as <-. right.
  assert (IX : In x (map en_handle l)) by (subst x; exact (in_map en_handle _ _ F1)).
  split; [exact IX|]. exact (B eq_refl _ _ IX L2).
Qed.
Lemma sets_begun_history h s : history h s -> sets_begun h s.
Proof.
  intros H. induction H as [addr|h s now o s' st out H IH S]; [discriminate|]. unfold sets_begun in *. intros x a' L EN.
  rewrite (public_kept _ _ _ _ _ _ S).
  assert (KEEP : forall a, lookup (sets s) x = Some a -> enabled a = true -> peer a' = peer a -> peer_kind a' = peer_kind a ->
    set_random a' = set_random a -> own a' = own a -> adv_address a' = adv_address a ->
    exists h0, begun (starts_set x) (Entry now o st out :: h) h0 /\ set_sends h0 (public_address s) a').
  { intros a LA EA E1 E2 E3 E4 E5. destruct (IH _ _ LA EA) as (h0 & B & O). exists h0. split; [now apply begun_before|].
    unfold set_sends in *. now rewrite E1, E2, E3, E4, E5. }
  assert (GO : (exists l, o = Command (SetExtEnable true l)) \/ (forall l, o <> Command (SetExtEnable true l))).
  { destruct o as [c| |]; try (right; discriminate). destruct c; try (right; discriminate). destruct on; [eauto|right; discriminate]. }
  destruct GO as [(l & ->)|NO].
  { destruct (set_enable_obeys _ _ _ _ _ _ _ H S _ _ L) as [[_ LA]|[I O]]; [now apply (KEEP a')|].
    exists h. split; [apply begun_now; exists l; auto|exact O]. }
  pose proof (step_changes _ _ _ _ _ _ _ _ _ S (sets_nodup _ _ _ _ _ H) x) as C. rewrite L in C.
  remember (lookup (sets s) x) as q eqn:Q. symmetry in Q. remember (Some a') as q' eqn:Q'.
  destruct C; try discriminate Q'; try (injection Q' as <-); try (now elim (NO _ eq_refl)); le_simpl_in EN;
    try (eapply KEEP; [reflexivity|..]; le_simpl; try reflexivity; assumption).
  - congruence.
  - exfalso. subst a. unfold apply_params in EN. le_simpl_in EN. destruct H1 as (X & _). destruct o; congruence.
  - cbn in EN. discriminate.
  - match goal with AD : advertise_set _ _ _ = _ |- _ => destruct (advertise_set_frame _ _ _ _ _ AD) as (? & ? & ? & ? & -> & EE) end. eapply KEEP; [reflexivity|..]; try reflexivity. auto.
  - subst a. now apply (KEEP a').
Qed.

Theorem advertises_obeying h s now o s' st out p a : history h s -> step now s o = Ok s' st out -> In (Sent p) out -> advert_from p = Some a ->
  advertises_as aes h s a.
Proof.
  intros H S I F. pose proof (step_sends _ _ _ _ _ _ _ _ _ _ _ H S I) as W.
  assert (LEG : l_enabled (legacy s) = true -> a = l_address (legacy s) -> advertises_as aes h s a).
  { intros EN ->. destruct (legacy_begun_history _ _ H EN) as (h0 & B & O).
    pose proof (legacy_given_history _ _ _ _ _ H) as G. unfold legacy_is in G.
    rewrite <- (random_history _ _ H), <- (legacy_own_history _ _ H) in O. exact (legacy_as _ _ _ _ h0 _ _ _ EN B G O). }
  assert (SET : forall x b, lookup (sets s) x = Some b -> enabled b = true -> a = adv_address b -> advertises_as aes h s a).
  { intros x b L EN ->. destruct (sets_begun_history _ _ H _ _ L EN) as (h0 & B & O).
    destruct (given_set _ _ _ _ _ _ _ H L) as (e & G & P1 & P2 & P3 & P4).
    pose proof (set_asks_history _ _ H x) as Q. rewrite L in Q. destruct Q as [Q1 Q2]. specialize (Q2 _ G).
    unfold set_sends in O. rewrite <- Q1, Q2, P3, P4 in O. exact (set_as _ _ _ _ x b e h0 L EN B G O). }
  destruct p; try discriminate; cbn [advert_from] in F; injection F as <-; cbn [sent_from] in W.
  - destruct W as [(E & A & _)|(x & b & L & E & _ & A & _)]; [exact (LEG E A)|exact (SET _ _ L E A)].
  - destruct W as (x & b & L & E & _ & A & _). exact (SET _ _ L E A).
  - destruct W as [(E & _ & A & _)|(x & b & L & E & _ & A & _)]; [exact (LEG E A)|exact (SET _ _ L E A)].
Qed.

(** Enabling succeeds only with an address which obeys *)
Theorem legacy_enable_chosen h s now s' out : history h s -> step now s (Command (SetAdvEnable true)) = Ok s' (Some SUCCESS) out ->
  l_enabled (legacy s') = true /\
  obeys h (snd (fst (legacy_given h))) (public_address s) (random_given h) (legacy_own_given h) (l_address (legacy s')).
Proof.
  intros H S. destruct (legacy_enable_obeys _ _ _ _ _ _ H S) as [[N _]|(_ & EN & _ & _ & _ & O)]; [now elim N|].
  split; [exact EN|]. pose proof (legacy_given_history _ _ _ _ _ H) as G. unfold legacy_is in G.
  rewrite (random_history _ _ H), (legacy_own_history _ _ H), G. exact O.
Qed.
Theorem set_enable_chosen h s now l s' out x a : history h s -> step now s (Command (SetExtEnable true l)) = Ok s' (Some SUCCESS) out ->
  In x (map en_handle l) -> lookup (sets s') x = Some a ->
  exists e, set_given x h = Some e /\
    obeys h (peer_device_address (e_peer e) (e_peer_kind e)) (public_address s) (set_random_given x h) (e_own e) (adv_address a).
Proof.
  intros H S IN L. destruct (set_enable_obeys _ _ _ _ _ _ _ H S _ _ L) as [[N _]|[_ O]]; [now elim (N eq_refl)|].
  assert (H' : history (Entry now (Command (SetExtEnable true l)) (Some SUCCESS) out :: h) s') by (eapply next_step; eassumption).
  destruct (given_set _ _ _ _ _ _ _ H' L) as (e & G & P1 & P2 & P3 & P4). change (set_given x h = Some e) in G.
  pose proof (set_asks_history _ _ H' x) as Q. rewrite L in Q. destruct Q as [Q1 Q2]. specialize (Q2 _ G).
  exists e. split; [exact G|]. unfold set_sends in O. rewrite <- Q1, Q2, P3, P4 in O. exact O.
Qed.

(** * Scanning *)

Lemma le_scanning_own now s s' o : le_scanning now s = (s', o) -> scan_own (scan s') = scan_own (scan s).
Proof.
  unfold le_scanning. intros H. destruct (negb _) in H; [injection H as <- <-; reflexivity|].
  destruct (_ && _) in H; injection H as <- <-; unfold scan_off; le_simpl; try reflexivity.
  all: repeat match goal with |- context [if ?b then _ else _] => destruct b end; le_simpl; try reflexivity;
    repeat match goal with |- context [match ?b with DUP_DISABLED => _ | _ => _ end] => destruct b end; le_simpl; reflexivity.
Qed.
Lemma scan_own_kept now s o s' st out : step now s o = Ok s' st out -> sets_scan_policy o = false -> scan_own (scan s') = scan_own (scan s).
Proof.
  intros S T. destruct (touches o PScan) eqn:TS.
  2:{ pose proof (step_same _ _ _ _ _ _ _ _ _ S PScan TS) as E. unfold same in E. now rewrite E. }
  destruct o as [c|p|]; cbn [LeHost.step] in S.
  - destruct c; try discriminate; unfold_step S; crack S; try discriminate; ok S; le_simpl; auto.
  - destruct p; try discriminate; cbn [receive] in S.
    1-2: unfold of_effect, receive_legacy_pdu, receive_extended_pdu in S;
      destruct (then_also _ _) as [s1 o1| |] eqn:E; try discriminate; injection S as <- <- <-;
      apply then_also_inv in E; destruct E as (s2 & o2 & o3 & E1 & E2 & ->); frames; le_simpl; auto.
    unfold of_pair in S. destruct (receive_scan_response _ _ _ _ _) as [s1 o1] eqn:E. ok S. frames. le_simpl; auto.
  - unfold tick in S. destruct (le_advertising now s) as [[s1 o1]|] eqn:A; [|discriminate].
    destruct (le_scanning now s1) as [s2 o2] eqn:E. ok S. apply le_scanning_own in E as ->.
    apply advertising_scan in A. now rewrite A.
Qed.
Lemma scan_own_set now s o s' st out : step now s o = Ok s' st out -> sets_scan_policy o = true -> o <> Command Reset ->
  scan_own (scan s') = scan_own_given [Entry now o st out] /\ st = Some SUCCESS
  \/ scan_own (scan s') = scan_own (scan s) /\ st <> Some SUCCESS.
Proof.
  intros S T NR. destruct o as [c|p|]; try discriminate. destruct c; try discriminate; [now elim NR| |].
  - unfold_step S; crack S; try discriminate; ok S; le_simpl; auto; right; split; congruence.
  - cbn [LeHost.step run_command] in S. unfold quiet, set_ext_scan_parameters, select_extended in S.
    destruct (legacy_used s) in S; [ok S; right; split; [reflexivity|discriminate]|].
    le_simpl_in S. do 5 (destruct (_ : bool) in S at 1; [ok S; right; split; [reflexivity|discriminate]|]). ok S. left. split; [|reflexivity]. le_simpl.
    destruct (N.testbit phys 0), (N.testbit phys 2); reflexivity.
Qed.
Lemma scan_own_skip now o st out h : sets_scan_policy o = false \/ (st <> Some SUCCESS /\ o <> Command Reset) ->
  scan_own_given (Entry now o st out :: h) = scan_own_given h.
Proof.
  intros [T|[T NR]]; cbn [scan_own_given what status_of]; destruct o as [[]| |]; try discriminate; try reflexivity; try (now elim NR);
    destruct st as [[]|]; try reflexivity; now elim T.
Qed.
Lemma scan_own_history h s : history h s -> scan_own (scan s) = scan_own_given h.
Proof.
  induction 1 as [a|h s now o s' st out H IH S]; [reflexivity|].
  destruct (sets_scan_policy o) eqn:T.
  - assert (R : o = Command Reset \/ o <> Command Reset) by (destruct o as [[]| |]; auto; right; discriminate).
    destruct R as [->|R]; [cbn [LeHost.step run_command] in S; unfold reset, loud in S; ok S; reflexivity|].
    destruct (scan_own_set _ _ _ _ _ _ S T R) as [[E ->]|[E N]].
    + rewrite E. destruct o as [[]| |]; try discriminate; try reflexivity.
    + rewrite E, IH. symmetry. apply scan_own_skip. auto.
  - rewrite (scan_own_kept _ _ _ _ _ _ S T), IH. symmetry. apply scan_own_skip. auto.
Qed.

(** A scan request in [o] is sent from an address which obeys *)
Definition scans_as (h : list entry) (s : le) (i : address_with_type) (x : output) : Prop :=
  match x with
  | Sent (AirScan a _) => obeys h i (public_address s) (random_address s) (scan_own (scan s)) a
  | _ => True
  end.
Lemma send_scan_as h now adv res b1 b2 b3 b4 x y s s' o : knows h (resolving s) ->
  send_scan_request aes rng now adv res b1 b2 b3 b4 x y s = Some (s', o) -> Forall (scans_as h s res) o.
Proof.
  unfold send_scan_request. intros K H. destruct (_ || _) in H; [injection H as <- <-; constructor|].
  destruct (generate _ _ _ _ _) as [s1 r] eqn:G. pose proof (generate_answers h _ _ _ _ K G) as A.
  apply generate_frame in G as (l & p & -> & _). destruct (scanning_address _ _) as [a|] eqn:C; [|discriminate]. injection H as <- <-.
  constructor; [|constructor]. exact (scanning_obeys _ _ _ _ _ A C).
Qed.
Lemma scan_legacy_as h now adv tgt t d s s' o : knows h (resolving s) -> scan_legacy_pdu aes rng now adv tgt t d s = Some (s', o) ->
  Forall (scans_as h s (who (resolving_on s) (resolving s) adv)) o.
Proof.
  unfold scan_legacy_pdu. intros K H. destruct (negb _) in H; [injection H as <- <-; constructor|].
  destruct (resolve aes adv s) as [s1 r] eqn:R. pose proof (resolve_who _ _ _ _ _ R) as W. apply resolve_frame in R as (l & -> & I1).
  destruct (negb _) in H; [injection H as <- <-; constructor|].
  destruct (if match t with PDU_DIRECT => true | _ => false end then _ else _); [|injection H as <- <-; constructor].
  destruct (filter_duplicate _ _) as [s2 f] eqn:FD. apply filter_duplicate_frame in FD as (hh & ->).
  destruct (send_scan_request _ _ _ _ _ _ _ _ _ _ _ _) as [[s3 o3]|] eqn:S; [|discriminate].
  injection H as <- <-. apply (send_scan_as h) in S; [|exact (knows_touched _ _ _ I1 K)]. rewrite <- W. outs; try exact S; exact I.
Qed.
Lemma scan_extended_as h now adv tgt c sc dir sid pw pr se pi d s s' o : knows h (resolving s) ->
  scan_extended_pdu aes rng cfg now adv tgt c sc dir sid pw pr se pi d s = Some (s', o) ->
  Forall (scans_as h s (who (resolving_on s) (resolving s) adv)) o.
Proof.
  unfold scan_extended_pdu. intros K H.
  do 4 (destruct (_ : bool) in H at 1; [injection H as <- <-; constructor|]).
  destruct (resolve aes adv s) as [s1 r] eqn:R. pose proof (resolve_who _ _ _ _ _ R) as W. apply resolve_frame in R as (l & -> & I1).
  destruct (negb _) in H; [injection H as <- <-; constructor|].
  destruct (if dir then _ else _); [|injection H as <- <-; constructor].
  destruct (filter_duplicate _ _) as [s2 f] eqn:FD. apply filter_duplicate_frame in FD as (hh & ->).
  destruct (send_scan_request _ _ _ _ _ _ _ _ _ _ _ _) as [[s3 o3]|] eqn:S; [|discriminate].
  injection H as <- <-. apply (send_scan_as h) in S; [|exact (knows_touched _ _ _ I1 K)]. rewrite <- W.
  apply Forall_app; split; [|exact S]. apply forall_if. intros B.
  apply Forall_forall. intros x IN. apply in_map_iff in IN as (f' & <- & _). exact I.
Qed.
Theorem scans_obeying h s now o s' st out a b : history h s -> step now s o = Ok s' st out -> In (Sent (AirScan a b)) out ->
  exists i, known_as aes s b i /\ obeys h i (public_address s) (random_given h) (scan_own_given h) a.
Proof.
  intros H S I. rewrite (random_history _ _ H), <- (scan_own_history _ _ H). pose proof (knows_history _ _ H) as K.
  pose proof (step_fine _ _ _ _ _ _ _ _ _ S) as F. rewrite Forall_forall in F. apply F in I as M. cbn [fine] in M. clear F.
  exists (who (resolving_on s) (resolving s) b). split; [apply who_known|].
  destruct o as [[]|p|]; try discriminate M. destruct p; try discriminate M; cbn [LeHost.step receive] in S;
    unfold of_effect, receive_legacy_pdu, receive_extended_pdu in S;
    destruct (then_also _ _) as [s1 o1| |] eqn:E in S; try discriminate S; ok S;
    apply then_also_inv in E; destruct E as (s2 & o2 & o3 & E1 & E2 & ->); apply in_app_iff in I as [I|I].
  - destruct (scan_legacy_says _ _ _ _ _ _ _ _ _ _ E1) as [F _]. rewrite Forall_forall in F. pose proof (F _ I) as [_ R]. cbn [scan_says] in R. subst b.
    apply (scan_legacy_as h) in E1; [|exact K]. rewrite Forall_forall in E1. exact (E1 _ I).
  - exfalso. unfold connect_legacy_pdu in E2. do 2 (destruct (_ : bool) in E2 at 1; [injection E2 as <- <-; destruct I|]). exact (connect_to_no_scan _ _ _ _ _ _ _ _ E2 _ _ I).
  - destruct (scan_extended_says _ _ _ _ _ _ _ _ _ _ _ _ _ _ _ _ _ _ E1) as [F _]. rewrite Forall_forall in F. pose proof (F _ I) as [_ R]. cbn [scan_says] in R. subst b.
    apply (scan_extended_as h) in E1; [|exact K]. rewrite Forall_forall in E1. exact (E1 _ I).
  - exfalso. unfold connect_extended_pdu in E2. do 3 (destruct (_ : bool) in E2 at 1; [injection E2 as <- <-; destruct I|]). exact (connect_to_no_scan _ _ _ _ _ _ _ _ E2 _ _ I).
Qed.
End WithController.
