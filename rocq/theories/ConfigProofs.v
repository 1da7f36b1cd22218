(** Lemmas on the configuration of a controller. *)
From Verif Require Import Prelude HciTables Hci HciSpec HciProofs Config ConfigSpec.
Open Scope N_scope.

(** ** Masks *)

Lemma length_update l i f : List.length (update l i f) = List.length l.
Proof. revert i; induction l as [|x l IH]; intros [|i]; cbn; auto. Qed.

Lemma nth_update l i f j : (i < List.length l)%nat ->
  nth j (update l i f) 0 = if Nat.eqb j i then f (nth i l 0) else nth j l 0.
Proof.
  revert i j; induction l as [|x l IH]; intros [|i] [|j] H; cbn in *; try lia; try reflexivity.
  apply IH. lia.
Qed.

Definition good (i : N) : bool := (i / 10 <? 64) && (i mod 10 <? 8).

Lemma length_set_command m b i : List.length (set_command m b i) = List.length m.
Proof. apply length_update. Qed.

Lemma masked_set_command m b i j : List.length m = 64%nat -> good i = true -> j mod 10 < 8 ->
  masked (set_command m b i) j = if j =? i then b else masked m j.
Proof.
  intros L G J. unfold good in G. apply andb_true_iff in G. destruct G as [G1 G2].
  apply N.ltb_lt in G1, G2. unfold masked, set_command.
  rewrite nth_update by (rewrite L; lia).
  destruct (Nat.eqb_spec (N.to_nat (j / 10)) (N.to_nat (i / 10))) as [E | E].
  - assert (Q : j / 10 = i / 10) by lia.
    change 256 with (2 ^ 8). rewrite N.mod_pow2_bits_low by assumption.
    rewrite <- Q.
    destruct (N.eqb_spec j i) as [-> | D].
    + destruct b.
      * rewrite N.lor_spec, N.pow2_bits_true. apply orb_true_r.
      * rewrite N.ldiff_spec, N.pow2_bits_true. apply andb_false_r.
    + assert (M : i mod 10 <> j mod 10).
      { intros M. apply D. rewrite (N.div_mod' j 10), (N.div_mod' i 10). now rewrite Q, M. }
      destruct b.
      * rewrite N.lor_spec, N.pow2_bits_false by assumption. apply orb_false_r.
      * rewrite N.ldiff_spec, N.pow2_bits_false by assumption. apply andb_true_r.
  - destruct (N.eqb_spec j i) as [-> | D]; [lia | reflexivity].
Qed.

Lemma set_commands_spec l : forall m b j, List.length m = 64%nat -> forallb good l = true -> j mod 10 < 8 ->
  List.length (set_commands m l b) = 64%nat /\
  masked (set_commands m l b) j = if existsb (N.eqb j) l then b else masked m j.
Proof.
  unfold set_commands. induction l as [|i l IH]; intros m b j L G J; cbn [fold_left existsb]; [now split |].
  cbn in G. apply andb_true_iff in G. destruct G as [G1 G2].
  destruct (IH (set_command m b i) b j) as [A B]; [now rewrite length_set_command | assumption | assumption |].
  split; [assumption |]. rewrite B, masked_set_command by assumption.
  destruct (j =? i), (existsb (N.eqb j) l); reflexivity.
Qed.

Lemma set_features_spec b l : forall le k,
  N.testbit (fold_left (fun le bit => set_feature le bit b) l le) k = if existsb (N.eqb k) l then b else N.testbit le k.
Proof.
  induction l as [|i l IH]; intros le k; cbn [fold_left existsb]; [reflexivity |].
  rewrite IH. unfold set_feature. destruct (N.eqb_spec k i) as [-> | D].
  - destruct (existsb (N.eqb i) l); [reflexivity |]. destruct b.
    + rewrite N.lor_spec, N.pow2_bits_true. apply orb_true_r.
    + rewrite N.ldiff_spec, N.pow2_bits_true. apply andb_false_r.
  - destruct (existsb (N.eqb k) l); [reflexivity |]. cbn [orb]. destruct b.
    + rewrite N.lor_spec, N.pow2_bits_false by congruence. apply orb_false_r.
    + rewrite N.ldiff_spec, N.pow2_bits_false by congruence. apply andb_true_r.
Qed.

(** ** The options one after the other *)

(** The tables of the constructor. *)
Definition coded_bits (o : option_name) : list N :=
  match o with
  | ExtendedAdvertising => [LE_EXTENDED_ADVERTISING]
  | PeriodicAdvertising => [LE_PERIODIC_ADVERTISING]
  | Privacy => [LL_PRIVACY]
  | Phy2M => [LE_2M_PHY]
  | PhyCoded => [LE_CODED_PHY]
  | IsochronousStreams => [CONNECTED_ISOCHRONOUS_STREAM_CENTRAL; CONNECTED_ISOCHRONOUS_STREAM_PERIPHERAL]
  | Subrating => [CONNECTION_SUBRATING]
  | ChannelSounding => [CHANNEL_SOUNDING]
  | PowerControl => [LE_POWER_CONTROL_REQUEST]
  end.

Definition coded_commands (o : option_name) : list N :=
  match o with
  | ExtendedAdvertising => le_extended_advertising_commands
  | PeriodicAdvertising => le_periodic_advertising_commands
  | Privacy => ll_privacy_commands
  | Phy2M | PhyCoded => []
  | IsochronousStreams => connected_isochronous_stream_commands
  | Subrating => connection_subrating_commands
  | ChannelSounding => channel_sounding_commands
  | PowerControl => le_power_control_request_commands
  end.

Definition apply_all (g : option_name -> option bool) (l : list option_name) (p : properties) : properties :=
  fold_left (fun p o => select (g o) (coded_bits o) (coded_commands o) p) l p.

Lemma select_none l m p : select None l m p = p.
Proof. reflexivity. Qed.

Lemma apply_features_all c p : apply_features (given_features c) p = apply_all (choice c) options p.
Proof.
  unfold apply_features, apply_all, options, choice. destruct (given_features c); reflexivity.
Qed.

Lemma bits_same o : coded_bits o = bits_of o.
Proof. now destruct o. Qed.

Lemma coded_good o : forallb good (coded_commands o) = true.
Proof. now destruct o; vm_compute. Qed.

Lemma select_spec g o p j : List.length (supported_commands p) = 64%nat -> j mod 10 < 8 ->
  List.length (supported_commands (select g (coded_bits o) (coded_commands o) p)) = 64%nat /\
  masked (supported_commands (select g (coded_bits o) (coded_commands o) p)) j =
    match g with
    | Some b => if existsb (N.eqb j) (coded_commands o) then b else masked (supported_commands p) j
    | None => masked (supported_commands p) j
    end.
Proof.
  intros L J. destruct g as [b |]; cbn [select]; [| now split].
  apply set_commands_spec; [assumption | apply coded_good | assumption].
Qed.

(** The options of [l] leave position [j] alone. *)
Definition leaves (g : option_name -> option bool) (l : list option_name) (j : N) : Prop :=
  forall o, In o l -> g o <> None -> ~ In j (coded_commands o).

Lemma existsb_eqb j l : existsb (N.eqb j) l = true <-> In j l.
Proof.
  rewrite existsb_exists. split.
  - intros (x & I & E). apply N.eqb_eq in E. now subst.
  - intros I. exists j. split; [assumption | apply N.eqb_refl].
Qed.

Lemma all_leaves g l : forall p j, List.length (supported_commands p) = 64%nat -> j mod 10 < 8 -> leaves g l j ->
  List.length (supported_commands (apply_all g l p)) = 64%nat /\
  masked (supported_commands (apply_all g l p)) j = masked (supported_commands p) j.
Proof.
  induction l as [|o l IH]; intros p j L J H; [now split |]. unfold apply_all in *. cbn [fold_left].
  destruct (select_spec (g o) o p j L J) as [A B].
  destruct (IH _ j A J) as [C D]; [intros o' I; apply H; now right |].
  split; [assumption |]. rewrite D, B. destruct (g o) eqn:G; [| reflexivity].
  destruct (existsb (N.eqb j) (coded_commands o)) eqn:E; [| reflexivity].
  exfalso. apply existsb_eqb in E. apply (H o); [now left | congruence | assumption].
Qed.

Lemma all_length g l : forall p, List.length (supported_commands p) = 64%nat ->
  List.length (supported_commands (apply_all g l p)) = 64%nat.
Proof.
  induction l as [|o l IH]; intros p L; [assumption |]. unfold apply_all in *. cbn [fold_left].
  apply IH. now apply (select_spec (g o) o p 0).
Qed.

Lemma all_governed g l1 l2 o b p j : List.length (supported_commands p) = 64%nat -> j mod 10 < 8 ->
  g o = Some b -> In j (coded_commands o) -> leaves g l2 j ->
  masked (supported_commands (apply_all g (l1 ++ o :: l2) p)) j = b.
Proof.
  intros L J G I H. unfold apply_all. rewrite fold_left_app. cbn [fold_left].
  fold (apply_all g l1 p). generalize (all_length g l1 p L). intros L1.
  destruct (select_spec (g o) o (apply_all g l1 p) j L1 J) as [A B].
  destruct (all_leaves g l2 _ j A J H) as [_ D]. unfold apply_all in D at 1. rewrite D, B, G.
  apply existsb_eqb in I. now rewrite I.
Qed.

Lemma features_untouched g l : forall p k,
  (forall o, In o l -> g o <> None -> ~ In k (bits_of o)) ->
  N.testbit (le_features (apply_all g l p)) k = N.testbit (le_features p) k.
Proof.
  induction l as [|o l IH]; intros p k H; [reflexivity |]. unfold apply_all in *. cbn [fold_left].
  rewrite IH by (intros o' I; apply H; now right). destruct (g o) eqn:G; cbn [select with_bits le_features]; [| reflexivity].
  rewrite set_features_spec, bits_same. destruct (existsb (N.eqb k) (bits_of o)) eqn:E; [| reflexivity].
  exfalso. apply existsb_eqb in E. apply (H o); [now left | congruence | assumption].
Qed.

(** ** The rest of the constructor *)

Lemma later_same c : supported_commands (configure c) = supported_commands (apply_features (given_features c) (apply_preset (given_preset c) (initial c))) /\
  le_features (configure c) = le_features (apply_features (given_features c) (apply_preset (given_preset c) (initial c))).
Proof. unfold configure, apply_vendor, apply_quirks. destruct (given_vendor c), (given_quirks c); now split. Qed.

Lemma preset_same c : supported_commands (apply_preset (given_preset c) (initial c)) = supported_commands (configure (preset_alone c)) /\
  le_features (apply_preset (given_preset c) (initial c)) = le_features (configure (preset_alone c)).
Proof. unfold configure. cbn [preset_alone given_features given_quirks given_vendor apply_features apply_quirks apply_vendor given_preset].
  destruct (given_preset c) as [[] |]; now split. Qed.

Lemma length_preset c : List.length (supported_commands (apply_preset (given_preset c) (initial c))) = 64%nat.
Proof. destruct (given_preset c) as [[] |]; reflexivity. Qed.

Lemma feature_selected c o b k : choice c o = Some b -> In k (bits_of o) -> N.testbit (le_features (configure c)) k = b.
Proof.
  intros C I. destruct (later_same c) as [_ ->]. rewrite apply_features_all.
  assert (S : exists l1 l2, options = l1 ++ o :: l2 /\ forall o', In o' l2 -> ~ In k (bits_of o')).
  { destruct (in_split o options) as (l1 & l2 & E); [destruct o; cbn; tauto |].
    exists l1, l2. split; [assumption |]. intros o' I' K.
    assert (N : NoDup options) by (unfold options; repeat constructor; cbn; intuition discriminate).
    rewrite E in N. apply NoDup_remove_2 in N. apply N, in_or_app. right.
    replace o with o'; [assumption |].
    destruct o, o'; cbn in I, K; try reflexivity; exfalso; lia. }
  destruct S as (l1 & l2 & E & H). rewrite E. unfold apply_all. rewrite fold_left_app. cbn [fold_left].
  fold (apply_all (choice c) l2 (select (choice c o) (coded_bits o) (coded_commands o)
    (fold_left (fun p o => select (choice c o) (coded_bits o) (coded_commands o) p) l1 (apply_preset (given_preset c) (initial c))))).
  rewrite features_untouched by (intros; now apply H). rewrite C. cbn [select with_bits le_features].
  rewrite set_features_spec, bits_same. apply existsb_eqb in I. now rewrite I.
Qed.

Lemma feature_kept c k : (forall o, choice c o <> None -> ~ In k (bits_of o)) ->
  N.testbit (le_features (configure c)) k = N.testbit (le_features (configure (preset_alone c))) k.
Proof.
  intros H. destruct (later_same c) as [_ ->]. rewrite apply_features_all, features_untouched.
  - now destruct (preset_same c) as [_ ->].
  - intros o _. apply H.
Qed.

Lemma preset_bits_are p k : N.testbit (le_features (configure {| given_preset := p; given_features := None; given_quirks := None;
     given_strict := None; given_vendor := None |})) k = existsb (N.eqb k) (preset_bits p).
Proof.
  destruct (N.lt_ge_cases k 64) as [L | L].
  - assert (A : forallb (fun i => Bool.eqb (N.testbit (le_features (configure {| given_preset := p; given_features := None; given_quirks := None;
       given_strict := None; given_vendor := None |})) (N.of_nat i)) (existsb (N.eqb (N.of_nat i)) (preset_bits p))) (seq 0 64) = true)
      by (destruct p as [[] |]; vm_compute; reflexivity).
    rewrite forallb_forall in A. specialize (A (N.to_nat k)). rewrite N2Nat.id in A. apply Bool.eqb_prop, A, in_seq. lia.
  - rewrite N.bits_above_log2.
    + symmetry. apply not_true_is_false. intros E. apply existsb_exists in E as (x & I & E). apply N.eqb_eq in E. subst x.
      assert (A : forallb (fun x => x <? 64) (preset_bits p) = true) by (destruct p as [[] |]; vm_compute; reflexivity).
      rewrite forallb_forall in A. apply A, N.ltb_lt in I. lia.
    + apply N.lt_le_trans with 64; [| exact L]. destruct p as [[] |]; vm_compute; reflexivity.
Qed.
Lemma feature_of_preset c k : (forall o, choice c o <> None -> ~ In k (bits_of o)) ->
  (N.testbit (le_features (configure c)) k = true <-> In k (preset_bits (given_preset c))).
Proof. intros H. rewrite feature_kept by exact H. unfold preset_alone. rewrite preset_bits_are. apply existsb_eqb. Qed.

(** ** Commands *)

Lemma known_small : forallb (fun e => snd e mod 10 <? 8) known = true.
Proof. vm_compute. reflexivity. Qed.

Lemma known_mod op j : assoc known op = Some j -> j mod 10 < 8.
Proof.
  intros A. apply assoc_in in A. generalize known_small. rewrite forallb_forall. intros F.
  apply F in A. now apply N.ltb_lt.
Qed.

Lemma commands_known o op : In op (commands_of o) ->
  exists j, assoc known op = Some j /\ In j (coded_commands o).
Proof.
  assert (F : forallb (fun o => forallb (fun op => match assoc known op with
     Some j => existsb (N.eqb j) (coded_commands o) | None => false end) (commands_of o)) options = true)
    by (vm_compute; reflexivity).
  rewrite forallb_forall in F. intros I. assert (O : In o options) by (destruct o; cbn; tauto).
  apply F in O. rewrite forallb_forall in O. apply O in I.
  destruct (assoc known op) as [j |]; [| discriminate]. exists j. split; [reflexivity | now apply existsb_eqb].
Qed.

Lemma known_commands o op j : assoc known op = Some j -> In j (coded_commands o) -> In op (commands_of o).
Proof.
  assert (F : forallb (fun o => forallb (fun e => negb (existsb (N.eqb (snd e)) (coded_commands o)) ||
     existsb (N.eqb (fst e)) (commands_of o)) known) options = true)
    by (vm_compute; reflexivity).
  rewrite forallb_forall in F. intros A I. assert (O : In o options) by (destruct o; cbn; tauto).
  apply F in O. rewrite forallb_forall in O. apply assoc_in in A. apply O in A. cbn [fst snd] in A.
  apply existsb_eqb in I. rewrite I in A. now apply existsb_eqb.
Qed.

Lemma commands_plain o op : In op (commands_of o) ->
  (op =? READ_LOCAL_SUPPORTED_COMMANDS) ||
     (is_vendor op && match assoc handlers op with Some _ => true | None => false end) = false.
Proof.
  assert (F : forallb (fun o => forallb (fun op => negb ((op =? READ_LOCAL_SUPPORTED_COMMANDS) || is_vendor op))
     (commands_of o)) options = true)
    by (vm_compute; reflexivity).
  rewrite forallb_forall in F. intros I. assert (O : In o options) by (destruct o; cbn; tauto).
  apply F in O. rewrite forallb_forall in O. apply O in I. apply negb_true_iff, orb_false_iff in I.
  destruct I as [-> ->]. reflexivity.
Qed.

Lemma options_sorted o : exists l1 l2, options = l1 ++ o :: l2 /\ forall o', In o' l2 -> rank o < rank o'.
Proof.
  destruct o; [exists [] | exists (firstn 1 options) | exists (firstn 2 options) | exists (firstn 3 options) | exists (firstn 4 options)
    | exists (firstn 5 options) | exists (firstn 6 options) | exists (firstn 7 options) | exists (firstn 8 options)];
    eexists; (split; [cbn; reflexivity |]); cbn; intros o' I; repeat (destruct I as [<- | I]; [cbn; lia |]); destruct I.
Qed.

Lemma governed c nm h o b op : choice c o = Some b -> In op (commands_of o) ->
  (forall o', choice c o' <> None -> In op (commands_of o') -> rank o' <= rank o) ->
  supported (hci c nm h) op = b.
Proof.
  intros C I L. unfold supported. rewrite (commands_plain o op I).
  destruct (commands_known o op I) as (j & A & J). rewrite A. cbn [commands hci].
  destruct (later_same c) as [-> _]. rewrite apply_features_all.
  destruct (options_sorted o) as (l1 & l2 & E & S). rewrite E.
  apply all_governed; [apply length_preset | now apply (known_mod op) | assumption | assumption |].
  intros o' I' N K. apply S in I'. apply (known_commands o' op j A) in K. generalize (L o' N K). lia.
Qed.

Lemma ungoverned c nm h nm' h' op : (forall o, choice c o <> None -> ~ In op (commands_of o)) ->
  supported (hci c nm h) op = supported (hci (preset_alone c) nm' h') op.
Proof.
  intros H. unfold supported. destruct ((op =? _) || _); [reflexivity |].
  destruct (assoc known op) as [j |] eqn:A; [| reflexivity]. cbn [commands hci].
  destruct (later_same c) as [-> _]. rewrite apply_features_all.
  destruct (preset_same c) as [<- _].
  apply all_leaves; [apply length_preset | now apply (known_mod op) |].
  intros o _ N K. apply (H o N). now apply (known_commands o op j).
Qed.

Lemma only_shared o o' op : In op (commands_of o) -> In op (commands_of o') -> o <> o' -> In op shared.
Proof.
  assert (F : forallb (fun o => forallb (fun o' => (rank o =? rank o') || forallb (fun op => negb (existsb (N.eqb op) (commands_of o')) ||
     existsb (N.eqb op) shared) (commands_of o)) options) options = true)
    by (vm_compute; reflexivity).
  intros I I' D. rewrite forallb_forall in F.
  assert (O : In o options) by (destruct o; cbn; tauto). assert (O' : In o' options) by (destruct o'; cbn; tauto).
  apply F in O. rewrite forallb_forall in O. apply O in O'. apply orb_true_iff in O'. destruct O' as [R | R].
  - exfalso. apply D. apply N.eqb_eq in R. destruct o, o'; try reflexivity; discriminate.
  - rewrite forallb_forall in R. apply R in I. apply existsb_eqb in I'. rewrite I' in I. now apply existsb_eqb.
Qed.

Lemma governed_alone c nm h o b op : choice c o = Some b -> In op (commands_of o) -> ~ In op shared ->
  supported (hci c nm h) op = b.
Proof.
  intros C I N. apply (governed c nm h o b op C I). intros o' _ I'.
  destruct (N.eq_dec (rank o') (rank o)) as [E | E]; [lia |].
  exfalso. apply N. apply (only_shared o o'); try assumption. intros ->. now apply E.
Qed.

(** ** What the host observes *)

Section Host.

Variable W : Type.
Variable inner : N -> list N -> W -> option (answer W).
Variable exact : bool.

Lemma turned_off c nm h o s p : choice c o = Some false -> In (opcode p) (commands_of o) -> ~ In (opcode p) shared ->
  operational (hci c nm h) s -> sound exact p ->
  command W inner exact (hci c nm h) s p = Done W s [Event (CommandComplete 1 (opcode p) [1])].
Proof.
  intros C I N O [F E]. rewrite (executed W inner exact _ s p _ _ (framed_parses W inner exact p F E) O).
  now rewrite (governed_alone c nm h o false).
Qed.

Lemma handled_iff op : In op unimplemented <-> (assoc handlers op = None /\ assoc known op <> None).
Proof.
  split.
  - intros I. assert (F : forallb (fun op => match assoc handlers op, assoc known op with None, Some _ => true | _, _ => false end) unimplemented = true)
      by (vm_compute; reflexivity).
    rewrite forallb_forall in F. apply F in I. destruct (assoc handlers op), (assoc known op); try discriminate. now split.
  - intros [H K]. assert (F : forallb (fun e => existsb (N.eqb (fst e)) unimplemented || match assoc handlers (fst e) with Some _ => true | None => false end) known = true)
      by (vm_compute; reflexivity).
    rewrite forallb_forall in F. destruct (assoc known op) as [j |] eqn:A; [| now destruct K]. apply assoc_in in A.
    apply F in A. cbn [fst] in A. rewrite H, orb_false_r in A. now apply existsb_eqb.
Qed.

Lemma deadly_handled c op b : deadly exact c op b -> assoc handlers op <> None.
Proof.
  intros D.
  assert (S : In op [SET_EVENT_FILTER; READ_LOCAL_EXTENDED_FEATURES; INTEL_READ; INTEL_WRITE; CSR_COMMAND; LE_APCF]).
  { destruct D as [[-> _] | [[-> _] | [[-> _] | [[-> _] | [[-> _] | [-> _]]]]]]; cbn; tauto. }
  clear D. repeat (destruct S as [<- | S]; [vm_compute; discriminate |]). destruct S.
Qed.

(** Which commands take a controller down, whatever its mask. *)
Lemma alive_any c s p :
  strict c = true -> tolerant c = true -> operational c s -> sound exact p ->
  inner (opcode p) (parameters p) (world W s) <> None ->
  alive W (command W inner exact c s p) <->
  supported c (opcode p) = false \/ ~ In (opcode p) unimplemented /\ ~ deadly exact c (opcode p) (parameters p).
Proof.
  intros S T O [F E] I. rewrite (executed W inner exact c s p _ _ (framed_parses W inner exact p F E) O).
  destruct (supported c (opcode p)) eqn:Sp.
  - destruct (assoc handlers (opcode p)) as [r |] eqn:A.
    + generalize (deadly_kills W inner exact c (opcode p) r (parameters p) A). intros K.
      assert (V : ~ In (opcode p) unimplemented) by (intros V; apply handled_iff in V; destruct V; congruence).
      destruct (checked (does r) && _) eqn:B.
      * split; [| intros _; now apply alive_invalid]. intros _. right. split; [assumption |].
        intros D. apply K in D. destruct D as [_ D]. discriminate.
      * rewrite served_alive; [| assumption | assumption |].
        -- split.
           ++ intros X. right. split; [assumption |]. intros D. apply K in D. now apply X.
           ++ intros [X | [_ X]] Y; [discriminate |]. apply X, K. now split.
        -- intros Q. generalize (kind_of _ _ A). rewrite Q in *. intros [_ Ly]. rewrite Ly in B.
           cbn [checked andb] in B. apply negb_false_iff, andb_true_iff in B. destruct B as [_ B].
           now apply (fits_any1 W inner exact).
    + rewrite S. split; [intros X; now apply dead_abort in X |]. intros [X | [X _]]; [discriminate |]. exfalso. apply X.
      apply handled_iff. split; [assumption |]. intros N. unfold supported in Sp. rewrite A, N in Sp.
      rewrite andb_false_r, orb_false_r in Sp. destruct (opcode p =? READ_LOCAL_SUPPORTED_COMMANDS) eqn:R; [| discriminate].
      apply N.eqb_eq in R. rewrite R in A. vm_compute in A. discriminate.
  - split; [intros _; now left | intros _; apply alive_done].
Qed.

Lemma turned_on c nm h o s p : choice c o = Some true -> In (opcode p) (commands_of o) -> ~ In (opcode p) shared ->
  ~ In (opcode p) promised_in_vain ->
  strict (hci c nm h) = true -> tolerant (hci c nm h) = true -> operational (hci c nm h) s -> sound exact p ->
  inner (opcode p) (parameters p) (world W s) <> None ->
  alive W (command W inner exact (hci c nm h) s p).
Proof.
  intros C I N V S T O F H. apply alive_any; try assumption. right.
  assert (X : forallb (fun o => forallb (fun op => existsb (N.eqb op) promised_in_vain ||
     negb (existsb (N.eqb op) (unimplemented ++ [SET_EVENT_FILTER; READ_LOCAL_EXTENDED_FEATURES; INTEL_READ; INTEL_WRITE; CSR_COMMAND; LE_APCF])))
     (commands_of o)) options = true) by (vm_compute; reflexivity).
  rewrite forallb_forall in X. assert (Q : In o options) by (destruct o; cbn; tauto).
  apply X in Q. rewrite forallb_forall in Q. apply Q in I. apply orb_true_iff in I. destruct I as [I | I].
  - exfalso. apply V. now apply existsb_eqb.
  - apply negb_true_iff in I. split; intros D.
    + assert (Y : existsb (N.eqb (opcode p)) (unimplemented ++ [SET_EVENT_FILTER; READ_LOCAL_EXTENDED_FEATURES; INTEL_READ; INTEL_WRITE; CSR_COMMAND; LE_APCF]) = true)
        by (apply existsb_eqb, in_or_app; now left). congruence.
    + assert (Y : existsb (N.eqb (opcode p)) (unimplemented ++ [SET_EVENT_FILTER; READ_LOCAL_EXTENDED_FEATURES; INTEL_READ; INTEL_WRITE; CSR_COMMAND; LE_APCF]) = true).
      { apply existsb_eqb, in_or_app. right.
        destruct D as [[-> _] | [[-> _] | [[-> _] | [[-> _] | [[-> _] | [-> _]]]]]]; cbn; tauto. }
      congruence.
Qed.

Lemma in_vain c nm h o s p : choice c o = Some true -> In (opcode p) (commands_of o) -> In (opcode p) promised_in_vain ->
  (forall o', choice c o' <> None -> In (opcode p) (commands_of o') -> rank o' <= rank o) ->
  operational (hci c nm h) s -> sound exact p ->
  command W inner exact (hci c nm h) s p =
    if given (given_strict c) true then Abort W [] else Done W s [Event (CommandComplete 1 (opcode p) [1])].
Proof.
  intros C I V L O [F E]. rewrite (executed W inner exact _ s p _ _ (framed_parses W inner exact p F E) O).
  rewrite (governed c nm h o true _ C I L).
  assert (X : forallb (fun op => match assoc handlers op with None => true | _ => false end) promised_in_vain = true)
    by (vm_compute; reflexivity).
  rewrite forallb_forall in X. apply X in V. destruct (assoc handlers (opcode p)); [discriminate |].
  replace (strict (hci c nm h)) with (given (given_strict c) true); [reflexivity |].
  cbn [strict hci]. unfold configure, apply_vendor, apply_quirks. rewrite apply_features_all.
  assert (Y : forall g l p, strict_mode (apply_all g l p) = strict_mode p).
  { intros g l. induction l as [|a l IH]; intros q; [reflexivity |]. unfold apply_all in *. cbn [fold_left]. rewrite IH.
    now destruct (g a). }
  destruct (given_vendor c), (given_quirks c); cbn [strict_mode]; rewrite Y; destruct (given_preset c) as [[] |]; reflexivity.
Qed.

End Host.

(** ** Flags and sizes *)

Lemma rest_kept g l : forall p, let q := apply_all g l p in
  random_address_quirk q = random_address_quirk p /\ hardware_error_quirk q = hardware_error_quirk p /\
  strict_mode q = strict_mode p /\ vendor_capabilities q = vendor_capabilities p /\ vendor_csr q = vendor_csr p /\
  vendor_apcf q = vendor_apcf p /\ lmp_features q = lmp_features p /\ sizes q = sizes p.
Proof.
  induction l as [|o l IH]; intros p; cbv zeta; [repeat split |].
  unfold apply_all in *. cbn [fold_left].
  destruct (IH (select (g o) (coded_bits o) (coded_commands o) p)) as (A & B & C & D & E & F & G & H).
  rewrite A, B, C, D, E, F, G, H. now destruct (g o).
Qed.

Lemma flags c nm h :
  strict (hci c nm h) = given (given_strict c) true /\
  error_before_reset (hci c nm h) = given (quirk_of c hardware_error_before_reset) false /\
  random_address_quirk (configure c) = given (quirk_of c has_default_random_address) false /\
  has_csr (hci c nm h) = given (vendor_of c csr_command) true /\
  has_capabilities (hci c nm h) = given (vendor_of c android) true /\
  has_apcf (hci c nm h) = given (vendor_of c android) true.
Proof.
  cbn [strict error_before_reset has_csr has_capabilities has_apcf hci].
  unfold configure. rewrite apply_features_all.
  destruct (rest_kept (choice c) options (apply_preset (given_preset c) (initial c))) as (A & B & C & D & E & F & _ & _).
  unfold apply_vendor, apply_quirks, quirk_of, vendor_of.
  destruct (given_vendor c), (given_quirks c); cbn [strict_mode hardware_error_quirk random_address_quirk vendor_csr vendor_capabilities vendor_apcf given];
    rewrite ?A, ?B, ?C, ?D, ?E, ?F; destruct (given_preset c) as [[] |]; repeat split.
Qed.

Lemma only_preset c c' : given_preset c = given_preset c' ->
  sizes (configure c) = sizes (configure c') /\ lmp_features (configure c) = lmp_features (configure c').
Proof.
  assert (X : forall c, sizes (configure c) = sizes (apply_preset (given_preset c) (initial c)) /\
     lmp_features (configure c) = lmp_features (apply_preset (given_preset c) (initial c))).
  { clear. intros c. unfold configure. rewrite apply_features_all.
    destruct (rest_kept (choice c) options (apply_preset (given_preset c) (initial c))) as (_ & _ & _ & _ & _ & _ & G & H).
    rewrite <- G, <- H. unfold apply_vendor, apply_quirks. destruct (given_vendor c), (given_quirks c); now split. }
  intros E. destruct (X c) as [-> ->], (X c') as [-> ->]. rewrite E. destruct (given_preset c') as [[] |]; now split.
Qed.

Lemma phys c :
  (choice c Phy2M <> None -> choice c PhyCoded <> None ->
   supported_phys (configure c) = 1 + (if given (choice c Phy2M) true then 2 else 0) + (if given (choice c PhyCoded) true then 4 else 0)).
Proof.
  intros A B. destruct (choice c Phy2M) as [a |] eqn:A', (choice c PhyCoded) as [b |] eqn:B'; try congruence.
  unfold supported_phys, supports_feature.
  rewrite (feature_selected c Phy2M a LE_2M_PHY A') by (now left). rewrite (feature_selected c PhyCoded b LE_CODED_PHY B') by (now left).
  now destruct a, b.
Qed.

(** Repeating the features of the default controller adds the two shared commands, at most. *)
Lemma restated c nm h nm' h' op : given_preset c = None -> (forall o, choice c o <> Some false) -> ~ In op shared ->
  supported (hci c nm h) op = supported (hci empty_configuration nm' h') op.
Proof.
  intros P C N. assert (E : empty_configuration = preset_alone c) by (unfold preset_alone, empty_configuration; now rewrite P).
  destruct (Exists_dec (fun o => choice c o = Some true /\ In op (commands_of o)) options) as [X | X].
  { intros o. destruct (choice c o) as [[] |]; [destruct (in_dec N.eq_dec op (commands_of o)); [left; now split | right; intros [_ ?]; auto] | right; intros [? _]; discriminate ..]. }
  - apply Exists_exists in X. destruct X as (o & _ & G & I). rewrite (governed_alone c nm h o true op G I N).
    symmetry. assert (F : forallb (fun o => forallb (fun op => existsb (N.eqb op) shared || supported (hci empty_configuration nm' h') op) (commands_of o)) options = true)
      by (vm_compute; reflexivity).
    rewrite forallb_forall in F. assert (Q : In o options) by (destruct o; cbn; tauto). apply F in Q.
    rewrite forallb_forall in Q. apply Q in I. apply orb_true_iff in I. destruct I as [I | I]; [| assumption].
    apply existsb_eqb in I. now destruct N.
  - rewrite E. apply ungoverned. intros o G I. apply X. apply Exists_exists. exists o. split; [destruct o; cbn; tauto |].
    split; [| assumption]. generalize (C o). destruct (choice c o) as [[] |]; congruence.
Qed.

(** ** The random address *)

Lemma address_kept c : forall h, (forall s, In s h -> s <> Reset /\ forall a, s <> SetRandom true a) ->
  random_address c h = if given (quirk_of c has_default_random_address) false then [0xba; 0xdb; 0xad; 0xba; 0xdb; 0xad] else [0; 0; 0; 0; 0; 0].
Proof.
  intros h H. destruct (flags c [] true) as (_ & _ & Q & _). rewrite <- Q. unfold random_address, created_address.
  fold default_random_address empty_address.
  generalize (if random_address_quirk (configure c) then default_random_address else empty_address).
  clear Q. induction h as [|s h IH]; intros a; cbn [fold_left]; [reflexivity |].
  rewrite IH by (intros s' I; apply H; now right).
  destruct (H s (or_introl eq_refl)) as [R A]. destruct s as [| [] b |]; cbn; try reflexivity; [now destruct R | now destruct (A b)].
Qed.

Lemma address_lost c c' h : random_address c (h ++ [Reset]) = random_address c' [Reset].
Proof. unfold random_address. now rewrite fold_left_app. Qed.

(** ** Vendor commands and the hardware error *)

Section Vendor.

Variable W : Type.
Variable inner : N -> list N -> W -> option (answer W).
Variable exact : bool.

Lemma csr_off c nm h s p : vendor_of c csr_command = Some false -> opcode p = 0xfc00 -> operational (hci c nm h) s -> sound exact p ->
  command W inner exact (hci c nm h) s p = Done W s [Event (CommandComplete 1 0xfc00 [1])].
Proof.
  intros C I O [F E]. rewrite (executed W inner exact _ s p _ _ (framed_parses W inner exact p F E) O).
  destruct (flags c nm h) as (_ & _ & _ & Q & _). rewrite C in Q. cbn [given] in Q. rewrite I.
  replace (supported (hci c nm h) 0xfc00) with true by (vm_compute; reflexivity).
  replace (assoc handlers 0xfc00) with (Some {| view := 0xfc00; layout := []; reply := 0xfc00; does := Csr |})
    by (vm_compute; reflexivity).
  cbn [checked does andb serve]. unfold csr. now rewrite Q.
Qed.

Lemma android_off c nm h s p : vendor_of c android = Some false ->
  (opcode p = 0xfd53 /\ parameters p = []) \/ (opcode p = 0xfd57 /\ parameters p <> []) ->
  operational (hci c nm h) s -> sound exact p ->
  command W inner exact (hci c nm h) s p = Done W s [Event (CommandComplete 1 (opcode p) [1])].
Proof.
  intros C I O [F E]. rewrite (executed W inner exact _ s p _ _ (framed_parses W inner exact p F E) O).
  destruct (flags c nm h) as (_ & _ & _ & _ & Q & R). rewrite C in Q, R. cbn [given] in Q, R.
  destruct I as [[I P] | [I P]]; rewrite I.
  - rewrite P. replace (supported (hci c nm h) 0xfd53) with true by (vm_compute; reflexivity).
    replace (assoc handlers 0xfd53) with (Some {| view := 0xfd53; layout := []; reply := 0xfd53; does := Capabilities |})
      by (vm_compute; reflexivity).
    cbn [checked does serve]. rewrite Q. destruct exact; reflexivity.
  - assert (X : fits exact [Fix 1; Any] (parameters p) = true).
    { apply (fits_any1 W inner). destruct (parameters p); [now destruct P |]. rewrite lenN_cons. lia. }
    replace (supported (hci c nm h) 0xfd57) with true by (vm_compute; reflexivity).
    replace (assoc handlers 0xfd57) with (Some {| view := 0xfd57; layout := [Fix 1; Any]; reply := 0xfd57; does := Apcf |})
      by (vm_compute; reflexivity).
    cbn [checked does serve view layout]. now rewrite R, X.
Qed.

Lemma error_quirk c nm h s p : sound exact p -> mode W s <> 1 -> was_reset W s = false -> opcode p <> RESET ->
  quirk_of c hardware_error_before_reset = Some true ->
  command W inner exact (hci c nm h) s p = Done W s [Event (HardwareError 0x42)].
Proof.
  intros [F E] M R D Q. unfold command. rewrite (framed_parses W inner exact p F E).
  assert (L : looped W s (opcode p) = false)
    by (unfold looped, ENABLE_LOCAL; now rewrite (proj2 (N.eqb_neq _ _) M)).
  destruct (flags c nm h) as (_ & X & _). rewrite Q in X. cbn [given] in X.
  rewrite L, X, R. cbn [andb negb]. now rewrite (proj2 (N.eqb_neq _ _) D).
Qed.

Lemma no_error_quirk c nm h w x t : quirk_of c hardware_error_before_reset <> Some true ->
  ran W inner exact (hci c nm h) (start W (hci c nm h) w) x t -> mode W t <> 1 -> operational (hci c nm h) t.
Proof.
  intros Q _ M. split; [assumption |]. left. destruct (flags c nm h) as (_ & X & _). rewrite X.
  destruct (quirk_of c hardware_error_before_reset) as [[] |]; [now destruct Q | reflexivity | reflexivity].
Qed.

End Vendor.

(** ** The presets *)

Lemma preset_vain c p nm h op : given_features c = None -> given (given_preset c) DEFAULT = p ->
  In op (preset_in_vain p) <-> supported (hci c nm h) op = true /\ In op unimplemented.
Proof.
  intros F P.
  assert (U : supported (hci c nm h) op = supported (hci (preset_alone c) [] true) op).
  { apply ungoverned. intros o. unfold choice. rewrite F. now intros []. }
  rewrite U. clear U.
  assert (X : forall p, forallb (fun e => Bool.eqb (existsb (N.eqb (fst e)) (preset_in_vain p))
     (supported (hci {| given_preset := Some p; given_features := None; given_quirks := None; given_strict := None; given_vendor := None |} [] true) (fst e)
      && existsb (N.eqb (fst e)) unimplemented)) known = true) by (intros []; vm_compute; reflexivity).
  assert (Y : forall p, forallb (fun op => match assoc known op with Some _ => true | None => false end) (preset_in_vain p) = true)
    by (intros []; vm_compute; reflexivity).
  assert (E : supported (hci (preset_alone c) [] true) op =
    supported (hci {| given_preset := Some p; given_features := None; given_quirks := None; given_strict := None; given_vendor := None |} [] true) op).
  { unfold preset_alone. destruct (given_preset c) as [q |]; cbn in P; subst; reflexivity. }
  rewrite E. clear E F P c nm h. specialize (X p). specialize (Y p). rewrite forallb_forall in X, Y. split.
  - intros I. generalize (Y op I). intros K. destruct (assoc known op) as [j |] eqn:A; [| discriminate].
    apply assoc_in in A. apply X in A. cbn [fst] in A. apply existsb_eqb in I. rewrite I in A. apply eqb_prop in A.
    symmetry in A. apply andb_true_iff in A. destruct A as [A B]. split; [assumption | now apply existsb_eqb].
  - intros [S U]. generalize (proj1 (handled_iff op) U). intros [_ K]. destruct (assoc known op) as [j |] eqn:A; [| now destruct K].
    apply assoc_in in A. apply X in A. cbn [fst] in A. apply existsb_eqb in U. rewrite S, U in A. apply eqb_prop in A. now apply existsb_eqb.
Qed.

Lemma configured_alive (W : Type) inner exact c nm h s p :
  given (given_strict c) true = true -> h = true -> operational (hci c nm h) s -> sound exact p ->
  inner (opcode p) (parameters p) (world W s) <> None ->
  alive W (command W inner exact (hci c nm h) s p) <->
  supported (hci c nm h) (opcode p) = false \/
  ~ In (opcode p) unimplemented /\ ~ deadly exact (hci c nm h) (opcode p) (parameters p).
Proof.
  intros S T. apply alive_any; [| assumption]. destruct (flags c nm h) as [-> _]. assumption.
Qed.
