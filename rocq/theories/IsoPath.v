(** Data paths, broadcast groups, and the two ends of a stream. *)
From Verif Require Import Prelude Table Iso IsoSpec IsoProofs IsoMore IsoLife IsoSafe IsoParams IsoEnd.
Open Scope N_scope.
Ltac Zify.zify_post_hook ::= Z.div_mod_to_equations.

(** ** Data paths *)

Definition set_of (c : cis) (out : bool) : bool :=
  if Bool.eqb out (role_eqb (c_role c) CENTRAL) then path_cp c else path_pc c.

Definition state_path (s : state) (x : N) (out : bool) : bool :=
  match lookup (conns s) x with Some c => set_of c out | None => false end.

Lemma set_of_same c d out : c_role c = c_role d -> path_cp c = path_cp d -> path_pc c = path_pc d -> set_of c out = set_of d out.
Proof. unfold set_of. now intros -> -> ->. Qed.

Definition moved (s s' : state) : Prop :=
  forall x out, lookup (conns s') x <> None -> state_path s' x out = state_path s x out.

Lemma moved_refl s : moved s s.
Proof. intros x out _. reflexivity. Qed.
Lemma moved_same s s' : conns s' = conns s -> moved s s'.
Proof. intros E x out _. unfold state_path. now rewrite E. Qed.
Lemma moved_trans a b c : moved a b -> moved b c -> (forall x, lookup (conns c) x <> None -> lookup (conns b) x <> None) -> moved a c.
Proof. intros A B K x out L. rewrite B by exact L. apply A. now apply K. Qed.
Lemma moved_put s h c d : lookup (conns s) h = Some d -> (forall out, set_of c out = set_of d out) -> moved s (with_conns (put (conns s) h c) s).
Proof.
  intros L E x out _. unfold state_path. cbn. rewrite lookup_put. destruct (N.eqb_spec x h) as [->|]; [|reflexivity].
  rewrite L. apply E.
Qed.
Lemma moved_fresh s h c : lookup (conns s) h = None -> (forall out, set_of c out = false) -> moved s (with_conns (put (conns s) h c) s).
Proof.
  intros L E x out _. unfold state_path. cbn. rewrite lookup_put. destruct (N.eqb_spec x h) as [->|]; [|reflexivity].
  rewrite L. apply E.
Qed.
Lemma moved_erase s h : moved s (with_conns (erase (conns s) h) s).
Proof.
  intros x out. unfold state_path. cbn. rewrite lookup_erase. destruct (x =? h); [intros []; reflexivity|reflexivity].
Qed.

Lemma deque_moved s s' out : inv s -> deque s = Some (s', out) -> moved s s' /\ forall x, lookup (conns s') x <> None -> lookup (conns s) x <> None.
Proof.
  intros I H. unfold deque in H. destruct (queue s) as [|r q] eqn:Q; [injection H as <- <-; split; [apply moved_refl|auto]|].
  destruct (inv_requests _ I r) as (d & D1 & _); [rewrite Q; now left|].
  open H. injection H as <- <-. rewrite D1 in E2. injection E2 as <-. split.
  - intros x out _. unfold state_path. cbn. rewrite lookup_put. destruct (N.eqb_spec x (r_handle r)) as [->|]; [|reflexivity].
    rewrite D1. reflexivity.
  - intros x. cbn. rewrite lookup_put. destruct (N.eqb_spec x (r_handle r)) as [->|]; [|auto]. rewrite D1. discriminate.
Qed.

Lemma add_entries_moved g l : forall s s' hs, add_entries g l s = Some (s', hs) -> forall x out, state_path s' x out = state_path s x out.
Proof.
  induction l as [|n l IH]; intros s s' hs H x out; cbn [add_entries] in H; [now injection H as <- <-|].
  open H. injection H as <- <-. rewrite (IH _ _ _ E0). unfold new_cis in E. open E; injection E as <- <-; [reflexivity|].
  apply new_cis_handle_spec in E2 as [_ E2]. unfold state_path. cbn. rewrite lookup_put.
  destruct (N.eqb_spec x a) as [->|]; [|reflexivity]. cbn in E2. rewrite E2. unfold set_of. cbn. now destruct (Bool.eqb out true).
Qed.

Lemma run_moved ck e s o s' out :
  inv s -> run ck e s o = Some (s', out) ->
  (forall x d k c, o = SetupPath x d k c -> accepted (Moment e o out) = false) ->
  (forall x i d, o = RemovePath x i d -> accepted (Moment e o out) = false) -> moved s s'.
Proof.
  intros I H NS NR. pose proof (run_replies _ _ _ _ _ _ H) as R. unfold replies in R.
  destruct (accepted (Moment e o out)) eqn:AC.
  2:{ destruct (command o) eqn:C.
      - destruct R as (st & hs & R1 & R2). destruct (accepted_answer e o _ _ _ _ R1) as [R3 _].
        destruct R2 as [-> _]; [|apply moved_refl]. intros ->. rewrite AC in R3. discriminate.
      - clear R NS NR. destruct o; try discriminate C; cbn [run] in H.
        + unfold add_link in H. open H. injection H as <- <-. now apply moved_same.
        + unfold remove_link, remove_acl in H. open H. injection H as <- <-. intros x d. unfold state_path.
          cbn [conns with_conns with_queue]. rewrite filter_conns_map, lookup_filter by apply I.
          destruct (lookup (conns s) x) as [c|] eqn:L; [|reflexivity].
          destruct (_ || _); [|intros []; reflexivity]. intros _. cbn. apply set_of_same; unfold unlink; destruct (optN_eqb _ _); reflexivity.
        + destruct p.
          * unfold cis_req in H. open H. injection H as <- <-. apply new_cis_handle_spec in E as [_ E].
            apply moved_fresh; [exact E|]. intros d. unfold set_of. cbn. now destruct (Bool.eqb d false).
          * unfold cis_rsp in H. open H; injection H as <- <-; [|apply moved_refl].
            apply find_cis_spec in E as (d & L & W); [|exact I]. apply waiting_spec in W as (_ & _ & W).
            assert (I' : inv (set_phase Connected n s)) by exact (set_phase_connected_inv _ _ _ I L W).
            match goal with K : deque _ = Some _ |- _ => destruct (deque_moved _ _ _ I' K) as [M1 M2] end.
            eapply moved_trans; [|exact M1|exact M2]. unfold set_phase. rewrite L. (eapply moved_put; [exact L|intros ?; reflexivity]).
          * unfold cis_ind in H. open H; injection H as <- <-; [|apply moved_refl]. (eapply moved_put; [eassumption|intros ?; reflexivity]).
          * unfold cis_terminate in H. open H; injection H as <- <-; [|apply moved_refl]. apply moved_erase.
          * unfold reject_ext in H. open H; injection H as <- <-; [|apply moved_refl].
            apply find_cis_spec in E0 as (d & L & W); [|exact I]. apply waiting_spec in W as (_ & W & W').
            rewrite E1 in L. injection L as ->.
            match goal with K : deque _ = Some _ |- _ =>
              destruct (deque_moved _ _ _ (reset_inv _ _ _ None I E1 W) K) as [M1 M2] end.
            eapply moved_trans; [|exact M1|exact M2]. (eapply moved_put; [exact E1|intros ?; reflexivity]).
          * discriminate. }
  destruct (command o) eqn:C; [|unfold accepted in AC; cbn [sent] in AC; rewrite R in AC; discriminate]. clear R.
  destruct (sets o) as [[g l]|] eqn:S.
  { destruct (sets_run _ _ _ _ _ _ _ _ S H AC) as (y & hs & K & _). intros x d _. exact (add_entries_moved _ _ _ _ _ K x d). }
  destruct o; try discriminate C; try discriminate S; cbn [run] in H.
  - unfold remove_cig, fail in H. open H; injection H as <- <-; try apply moved_refl.
    intros x d. unfold state_path. cbn [conns with_conns]. rewrite lookup_filter by apply I.
    destruct (lookup (conns s) x) as [c|]; [|reflexivity]. destruct (_ || _); [reflexivity|intros []; reflexivity].
  - unfold create_cis, fail in H. open H; injection H as <- <-; try apply moved_refl.
    apply check_requests_spec in E as [C1 C2]; [|exact I|constructor|intros r []].
    apply freeze_spec in E2 as (F1 & F2 & F3 & F4 & F5 & F6 & F7).
    assert (I' : inv (with_queue l0 a)).
    { destruct I as [I1 I2 I3 I4 I5]. split; cbn; rewrite ?F1; auto.
      - intros k d L. destruct (I2 k d L) as (U1 & U2 & U3 & U4 & U5 & U6 & U7).
        repeat (split; [assumption|]). intros X. destruct (U7 X) as [V1 V2]. cbn. rewrite F3. split; [|exact V2].
        rewrite F7. exact V1.
      - intros r Hr. destruct (C2 r Hr) as (c0 & L & KK). exists c0. cbn. rewrite F1. auto. }
    destruct (deque_moved _ _ _ I' E3) as [M1 M2]. eapply moved_trans; [|exact M1|exact M2]. now apply moved_same.
  - unfold accept_cis, fail in H. open H; injection H as <- <-; try apply moved_refl. (eapply moved_put; [eassumption|intros ?; reflexivity]).
  - unfold reject_cis, fail in H. open H; injection H as <- <-; try apply moved_refl. apply moved_erase.
  - specialize (NS _ _ _ _ eq_refl). discriminate.
  - specialize (NR _ _ _ eq_refl). discriminate.
  - unfold disconnect, fail in H. destruct (lookup (conns s) h) as [d|] eqn:L; [|injection H as <- <-; apply moved_refl].
    open H; injection H as <- <-; try apply moved_refl; (destruct (role_eqb _ _); [|apply moved_erase]); unfold set_phase; rewrite L;
      (eapply moved_put; [eassumption|intros ?; reflexivity]).
  - unfold create_big, fail in H. open H; injection H as <- <-; try apply moved_refl; now apply moved_same.
  - unfold terminate_big, fail in H. open H; injection H as <- <-; try apply moved_refl; now apply moved_same.
Qed.

Lemma path_unset_unknown h x out : lookup (streams h) x = None -> path x out h = false.
Proof. destruct h as [|m h]; [reflexivity|]. intros L. cbn [path]. now rewrite L. Qed.

Lemma history_path ck (P : state -> op -> Prop) h s x out :
  (forall s o, P s o -> orderly s o) -> history ck P h s -> path x out h = state_path s x out.
Proof.
  intros PO H. induction H as [|h s e o s' u H IH Q E]; [reflexivity|].
  assert (H' : history ck P (Moment e o u :: h) s') by (econstructor; eauto).
  pose proof (history_agrees _ _ _ _ PO H') as [_ A']. pose proof (history_inv _ _ _ _ PO H) as I.
  cbn [path]. rewrite A'. destruct (lookup (conns s') x) as [c'|] eqn:L'.
  2:{ cbn. unfold state_path. now rewrite L'. }
  cbn [option_map]. apply step_run in E as [E _].
  assert (M : (forall x d k c, o = SetupPath x d k c -> accepted (Moment e o u) = false) ->
              (forall x i d, o = RemovePath x i d -> accepted (Moment e o u) = false) -> path x out h = state_path s' x out).
  { intros N1 N2. rewrite IH. symmetry. apply (run_moved _ _ _ _ _ _ I E N1 N2). congruence. }
  destruct o; cbn [what]; try (apply M; discriminate).
  - destruct (accepted (Moment e (SetupPath h0 out0 codec codec_config) u)) eqn:AC.
    2:{ cbn [andb]. apply M; [intros; reflexivity|discriminate]. }
    clear M. cbn [andb]. cbn [run] in E. unfold setup_path, fail, answer in E.
    open E; injection E as <- <-; try discriminate AC.
    + unfold state_path in *. cbn [conns with_conns] in *. rewrite lookup_put in *. rewrite (N.eqb_sym h0 x).
      destruct (N.eqb_spec x h0) as [->|]; [|exact IH]. rewrite E1 in IH.
      rewrite IH. unfold set_of. destruct (Bool.eqb out0 (role_eqb (c_role c) CENTRAL)) eqn:B; cbn [c_role with_path_cp with_path_pc path_cp path_pc];
        destruct out0, out, (role_eqb (c_role c) CENTRAL); cbn in *; congruence.
    + destruct (N.eqb_spec h0 x) as [->|]; [cbn in L'; congruence|]. exact IH.
  - destruct (accepted (Moment e (RemovePath h0 input out0) u)) eqn:AC.
    2:{ cbn [andb]. apply M; [discriminate|intros; reflexivity]. }
    clear M. cbn [andb]. cbn [run] in E. unfold remove_path, fail, answer in E. destruct (lookup (conns s) h0) as [c|] eqn:L.
    + destruct (role_eqb (c_role c) CENTRAL) eqn:RC; open E; injection E as <- <-; try discriminate AC;
        unfold state_path in *; cbn [conns with_conns] in *; rewrite lookup_put in *; rewrite (N.eqb_sym h0 x);
        (destruct (N.eqb_spec x h0) as [->|]; [|exact IH]); rewrite L in IH; rewrite IH; unfold set_of;
        cbn [c_role with_path_cp with_path_pc path_cp path_pc]; rewrite RC;
        destruct out; cbn [Bool.eqb andb]; destruct out0, input; rewrite ?andb_true_r, ?andb_false_r; reflexivity.
    + destruct (N.eqb_spec h0 x) as [->|]; [|open E; injection E as <- <-; exact IH].
      open E; injection E as <- <-; cbn in L'; congruence.
Qed.

Lemma setup_exact ck h s e x d k l s' u :
  history ck orderly h s -> step ck e s (SetupPath x d k l) = Ok s' u -> lookup (streams h) x <> None ->
  (accepted (Moment e (SetupPath x d k l) u) = true -> path x d h = false) /\
  (forall g c, lookup (streams h) x = Some (Own g c) -> path x d h = false -> l = [] \/ k <> 3 ->
     accepted (Moment e (SetupPath x d k l) u) = true).
Proof.
  intros H E K. pose proof (history_agrees _ _ _ _ (fun _ _ H => H) H) as [_ A].
  pose proof (history_inv _ _ _ _ (fun _ _ H => H) H) as I.
  rewrite (history_path _ _ _ _ x d (fun _ _ H => H) H). rewrite A in *. unfold state_path.
  apply step_run in E as [E _]. cbn [run] in E. unfold setup_path, fail, answer in E.
  destruct (lookup (conns s) x) as [c|] eqn:L; [|now elim K]. cbn [option_map] in *.
  assert (B : negb (lenN l =? 0) && (k =? 3) = true -> l = [] \/ k <> 3 -> False).
  { rewrite andb_true_iff, negb_true_iff, N.eqb_eq. intros [B1 B2] [->|B3]; [discriminate|congruence]. }
  destruct (negb (lenN l =? 0) && (k =? 3)); [injection E as <- <-; split; [discriminate|intros; now elim B]|].
  unfold set_of. destruct (path_cp c && Bool.eqb d (role_eqb (c_role c) CENTRAL)) eqn:E1.
  { injection E as <- <-. rewrite andb_true_iff in E1. destruct E1 as [E1 E2]. rewrite E2, E1. split; [discriminate|]. intros ? ? ? [=]. }
  destruct (path_pc c && Bool.eqb d (negb (role_eqb (c_role c) CENTRAL))) eqn:E2.
  { injection E as <- <-. rewrite andb_true_iff in E2. destruct E2 as [E2 E3].
    assert (Bool.eqb d (role_eqb (c_role c) CENTRAL) = false) as -> by (destruct d, (role_eqb (c_role c) CENTRAL); cbn in *; congruence).
    rewrite E2. split; [discriminate|]. intros ? ? ? [=]. }
  assert (X : (if Bool.eqb d (role_eqb (c_role c) CENTRAL) then path_cp c else path_pc c) = false).
  { destruct d, (role_eqb (c_role c) CENTRAL), (path_cp c), (path_pc c); cbn in *; congruence. }
  destruct (role_eqb (c_role c) PERIPHERAL && _) eqn:E3; injection E as <- <-.
  - split; [discriminate|]. intros g i O _ _. unfold proj in O. destruct (c_role c); [discriminate E3|discriminate O].
  - split; [auto|reflexivity].
Qed.

Lemma remove_exact ck h s e x i d s' u :
  history ck orderly h s -> step ck e s (RemovePath x i d) = Ok s' u -> lookup (streams h) x <> None ->
  accepted (Moment e (RemovePath x i d) u) = (negb i || path x false h) && (negb d || path x true h).
Proof.
  intros H E K. pose proof (history_agrees _ _ _ _ (fun _ _ H => H) H) as [_ A].
  rewrite !(history_path _ _ _ _ x _ (fun _ _ H => H) H). rewrite A in *. unfold state_path.
  apply step_run in E as [E _]. cbn [run] in E. unfold remove_path, fail, answer in E.
  destruct (lookup (conns s) x) as [c|] eqn:L; [|now elim K]. unfold set_of.
  destruct (role_eqb (c_role c) CENTRAL) eqn:RC; cbv iota beta in E; cbn [Bool.eqb];
    destruct (path_cp c), (path_pc c), i, d; cbn in *; injection E as <- <-; reflexivity.
Qed.

(** ** Broadcast groups *)

Record big_ok (s : state) (t : table (N * list N)) : Prop := {
  big_keys : NoDup (keys t) /\ NoDup (keys (biss s)) /\ NoDup (keys (bigs s));
  big_known : forall b, option_map fst (lookup t b) = option_map big_adv (lookup (bigs s) b);
  big_used : forall x i, lookup (biss s) x = Some i -> exists a hs, lookup t (b_big i) = Some (a, hs) /\ In x hs;
  big_handles : forall b a hs, lookup t b = Some (a, hs) -> NoDup hs /\
    forall x, In x hs -> 0xd00 <= x <= 0xdfe /\ exists i, lookup (biss s) x = Some i /\ b_big i = b;
  big_sets : forall b c a hs ks, lookup t b = Some (a, hs) -> lookup t c = Some (a, ks) -> b = c }.

Lemma big_ok_same s s' t : big_ok s t -> bigs s' = bigs s -> biss s' = biss s -> big_ok s' t.
Proof. intros [A B C D F] E1 E2. split; rewrite ?E1, ?E2; auto. Qed.

Lemma big_ok_path s t h b v : big_ok s t -> lookup (biss s) h = Some b -> big_ok (with_biss (put (biss s) h (with_b_path v b)) s) t.
Proof.
  intros [(A1 & A2 & A3) B C D F] L. split; cbn [biss bigs with_biss]; auto.
  - split; [exact A1|]. split; [now apply nodup_put|exact A3].
  - intros x i. rewrite lookup_put. destruct (N.eqb_spec x h) as [->|]; [|apply C]. intros [= <-]. apply (C _ _ L).
  - intros k a hs K. destruct (D _ _ _ K) as [D1 D2]. split; [exact D1|]. intros x X. destruct (D2 x X) as (D3 & i & D4 & D5).
    split; [exact D3|]. rewrite lookup_put. destruct (N.eqb_spec x h) as [->|]; [|eauto].
    rewrite L in D4. injection D4 as <-. eexists. split; [reflexivity|exact D5].
Qed.

Lemma new_bis_spec m x : new_bis_handle m = Some x -> 0xd00 <= x <= 0xdfe /\ lookup m x = None.
Proof.
  unfold new_bis_handle. intros H. apply find_some in H as [H1 H2]. apply range_in in H1. split; [lia|].
  rewrite has_lookup in H2. destruct (lookup m x); [discriminate|reflexivity].
Qed.

Lemma new_bises_spec b ids : forall m m' hs, NoDup (keys m) -> new_bises b ids m = Some (m', hs) ->
  NoDup (keys m') /\ NoDup hs /\ length hs = length ids /\
  (forall x, In x hs -> 0xd00 <= x <= 0xdfe /\ lookup m x = None /\ exists i, lookup m' x = Some i /\ b_big i = b) /\
  (forall x, ~ In x hs -> lookup m' x = lookup m x).
Proof.
  induction ids as [|i ids IH]; intros m m' hs N H; cbn [new_bises] in H.
  - injection H as <- <-. split; [exact N|]. split; [constructor|]. split; [reflexivity|]. split; [intros x []|auto].
  - open H. injection H as <- <-. apply new_bis_spec in E as [R L].
    apply IH in E0 as (N' & ND & LEN & IN & OUT); [|now apply nodup_put].
    assert (NI : ~ In a l).
    { intros X. destruct (IN a X) as (_ & Z & _). rewrite lookup_put, N.eqb_refl in Z. discriminate. }
    split; [exact N'|]. split; [now constructor|]. split; [cbn; now rewrite LEN|]. split.
    + intros x [<-|X].
      * split; [exact R|]. split; [exact L|]. rewrite OUT by exact NI. rewrite lookup_put, N.eqb_refl.
        eexists. split; [reflexivity|reflexivity].
      * destruct (IN x X) as (Z1 & Z2 & Z3). split; [exact Z1|]. split; [|exact Z3].
        rewrite lookup_put in Z2. destruct (x =? a); [discriminate|exact Z2].
    + intros x X. cbn in X. rewrite OUT by tauto. rewrite lookup_put. destruct (N.eqb_spec x a) as [->|]; [tauto|reflexivity].
Qed.

Lemma run_big ck e s o s' out t :
  big_ok s t -> run ck e s o = Some (s', out) -> big_ok s' (broadcast (Moment e o out) t).
Proof.
  intros B H. destruct o; cbn [run] in H; unfold broadcast; cbn [what sent].
  - unfold set_cig, fail in H. open H; injection H as <- <-; auto.
    match goal with K : add_entries _ _ _ = Some _ |- _ => rename K into AE end.
    eapply big_ok_same; [exact B| |];
    assert (X : forall l s s' hs, add_entries g l s = Some (s', hs) -> bigs s' = bigs s /\ biss s' = biss s)
     by (clear; induction l as [|n l IH]; intros s s' hs H; cbn [add_entries] in H; [now injection H as <- <-|];
         open H; injection H as <- <-; destruct (IH _ _ _ E0) as [-> ->]; unfold new_cis in E; open E; injection E as <- <-; auto);
    destruct (X _ _ _ _ AE) as [X1 X2]; (exact X1 || exact X2).
  - unfold set_cig_test, fail in H. open H; injection H as <- <-; auto.
    match goal with K : add_entries _ _ _ = Some _ |- _ => rename K into AE end.
    eapply big_ok_same; [exact B| |];
    assert (X : forall l s s' hs, add_entries g l s = Some (s', hs) -> bigs s' = bigs s /\ biss s' = biss s)
     by (clear; induction l as [|n l IH]; intros s s' hs H; cbn [add_entries] in H; [now injection H as <- <-|];
         open H; injection H as <- <-; destruct (IH _ _ _ E0) as [-> ->]; unfold new_cis in E; open E; injection E as <- <-; auto);
    destruct (X _ _ _ _ AE) as [X1 X2]; (exact X1 || exact X2).
  - unfold remove_cig, fail in H. open H; injection H as <- <-; auto; eapply big_ok_same; eauto.
  - unfold create_cis, fail in H. open H; injection H as <- <-; auto.
    apply freeze_spec in E2 as (_ & _ & _ & _ & F5 & F6 & _).
    eapply big_ok_same; [exact B| |]; unfold deque in E3; open E3; injection E3 as <- <-; cbn; auto.
  - unfold accept_cis, fail in H. open H; injection H as <- <-; auto; eapply big_ok_same; eauto.
  - unfold reject_cis, fail in H. open H; injection H as <- <-; auto; eapply big_ok_same; eauto.
  - unfold setup_path, fail in H. open H; injection H as <- <-; auto; try (eapply big_ok_same; eauto; fail).
    now apply big_ok_path.
  - unfold remove_path, fail in H. destruct (lookup (conns s) h).
    + destruct (if role_eqb _ _ then _ else _) in H. open H; injection H as <- <-; auto; eapply big_ok_same; eauto.
    + open H; injection H as <- <-; auto. now apply big_ok_path.
  - unfold disconnect, fail in H. destruct (lookup (conns s) h) as [d|] eqn:L; [|now injection H as <- <-].
    open H; injection H as <- <-; auto; destruct (role_eqb _ _); unfold set_phase; rewrite ?L; eapply big_ok_same; eauto.
  - unfold create_big, fail in H. open H; injection H as <- <-; auto. cbn [fold_left app answer].
    destruct B as [(A1 & A2 & A3) B C D F]. match goal with K : new_bises _ _ _ = Some _ |- _ => apply new_bises_spec in K as (N & ND & LEN & IN & OUT); [|exact A2] end.
    assert (TN : lookup t b = None).
    { specialize (B b). rewrite has_lookup in E0. destruct (lookup (bigs s) b); [discriminate|].
      destruct (lookup t b); [discriminate|reflexivity]. }
    assert (AN : forall c hs, lookup t c <> Some (adv, hs)).
    { intros c hs K. specialize (B c). rewrite K in B. cbn in B. destruct (lookup (bigs s) c) as [y|] eqn:LB; [|discriminate].
      injection B as B. assert (existsb (fun x => big_adv x =? adv) (values (bigs s)) = true); [|congruence].
      apply existsb_exists. exists y. split; [apply lookup_pair in LB; unfold values; apply in_map_iff; exists (c, y); auto|].
      rewrite B. apply N.eqb_refl. }
    split; cbn [biss bigs with_biss with_bigs].
    + split; [now apply nodup_put|]. split; [exact N|now apply nodup_put].
    + intros c. rewrite !lookup_put. destruct (c =? b); [reflexivity|apply B].
    + intros x i L. destruct (in_dec N.eq_dec x l) as [X|X].
      * destruct (IN x X) as (_ & _ & j & J1 & J2). rewrite L in J1. injection J1 as <-. rewrite J2.
        exists adv, l. rewrite lookup_put, N.eqb_refl. auto.
      * rewrite OUT in L by exact X. destruct (C _ _ L) as (a & hs & K1 & K2). exists a, hs. rewrite lookup_put.
        destruct (N.eqb_spec (b_big i) b) as [K|]; [congruence|auto].
    + intros c a hs. rewrite lookup_put. destruct (N.eqb_spec c b) as [->|Ne].
      * intros [= <- <-]. split; [exact ND|]. intros x X. destruct (IN x X) as (Z1 & _ & Z2). auto.
      * intros K. destruct (D _ _ _ K) as [D1 D2]. split; [exact D1|]. intros x X. destruct (D2 x X) as (D3 & i & D4 & D5).
        split; [exact D3|]. exists i. split; [|exact D5]. rewrite OUT; [exact D4|].
        intros Y. destruct (IN x Y) as (_ & Z & _). congruence.
    + intros c d a hs ks. rewrite !lookup_put. destruct (N.eqb_spec c b) as [->|Ne1], (N.eqb_spec d b) as [->|Ne2]; auto.
      * intros [= <- <-] K. elim (AN _ _ K).
      * intros K [= <- <-]. elim (AN _ _ K).
      * apply F.
  - unfold terminate_big, fail in H. open H; injection H as <- <-; auto. cbn [fold_left app answer].
    destruct B as [(A1 & A2 & A3) B C D F]. split; cbn [biss bigs with_biss with_bigs].
    + split; [now apply nodup_erase|]. split; [now apply nodup_filter|now apply nodup_erase].
    + intros c. rewrite !lookup_erase. destruct (c =? b); [reflexivity|apply B].
    + intros x i. rewrite lookup_filter by exact A2. destruct (lookup (biss s) x) as [j|] eqn:L; [|discriminate].
      cbn [snd]. destruct (N.eqb_spec (b_big j) b) as [K|K]; cbn [negb]; [discriminate|]. intros [= <-].
      destruct (C _ _ L) as (a & hs & K1 & K2). exists a, hs. rewrite lookup_erase. apply N.eqb_neq in K as ->. auto.
    + intros c a hs. rewrite lookup_erase. destruct (N.eqb_spec c b) as [->|Ne]; [discriminate|].
      intros K. destruct (D _ _ _ K) as [D1 D2]. split; [exact D1|]. intros x X. destruct (D2 x X) as (D3 & i & D4 & D5).
      split; [exact D3|]. exists i. split; [|exact D5]. rewrite lookup_filter by exact A2. rewrite D4. cbn [snd].
      rewrite D5. apply N.eqb_neq in Ne as ->. reflexivity.
    + intros c d a hs ks. rewrite !lookup_erase. destruct (c =? b); [discriminate|]. destruct (d =? b); [discriminate|]. apply F.
  - unfold add_link in H. open H. injection H as <- <-. eapply big_ok_same; eauto.
  - unfold remove_link, remove_acl in H. open H. injection H as <- <-. eapply big_ok_same; eauto.
  - assert (DQ : forall s s' out, deque s = Some (s', out) -> bigs s' = bigs s /\ biss s' = biss s).
    { clear. unfold deque. intros s s' out H. open H; injection H as <- <-; auto. }
    assert (SP : forall x, bigs (set_phase Connected x s) = bigs s /\ biss (set_phase Connected x s) = biss s).
    { intros x. unfold set_phase. destruct (lookup (conns s) x); auto. }
    destruct p.
    + unfold cis_req in H. open H. injection H as <- <-. eapply big_ok_same; eauto.
    + unfold cis_rsp in H. open H; injection H as <- <-; auto.
      match goal with K : deque _ = Some _ |- _ => destruct (DQ _ _ _ K) as [K1 K2] end.
      eapply big_ok_same; [exact B|rewrite K1; apply SP|rewrite K2; apply SP].
    + unfold cis_ind in H. open H; injection H as <- <-; auto; eapply big_ok_same; eauto.
    + unfold cis_terminate in H. open H; injection H as <- <-; auto; eapply big_ok_same; eauto.
    + unfold reject_ext in H. open H; injection H as <- <-; auto.
      match goal with K : deque _ = Some _ |- _ => destruct (DQ _ _ _ K) as [K1 K2] end.
      eapply big_ok_same; [exact B|exact K1|exact K2].
    + discriminate.
Qed.

Lemma history_big ck P h s : history ck P h s -> big_ok s (broadcasts h).
Proof.
  induction 1 as [|h s e o s' out H IH Q E].
  - split; cbn; try discriminate; auto. repeat split; constructor.
  - apply step_run in E as [E _]. cbn [broadcasts]. eapply run_big; eauto.
Qed.

Lemma big_created ck P h s e b adv num iv sdu lat rtn phy s' out b' x1 x2 x3 x4 hs :
  history ck P h s -> step ck e s (CreateBig b adv num iv sdu lat rtn phy) = Ok s' out ->
  In (Event (BigCreated b' x1 x2 x3 x4 hs)) out ->
  b' = b /\ lookup (broadcasts h) b = None /\ lenN hs = num /\ NoDup hs /\ periodic e adv = Some true /\
  (forall x, In x hs -> 0xd00 <= x <= 0xdfe) /\
  (forall c a ks, lookup (broadcasts h) c = Some (a, ks) -> a <> adv /\ forall x, In x hs -> ~ In x ks).
Proof.
  intros H E IN. pose proof (history_big _ _ _ _ H) as [(A1 & A2 & A3) B C D F].
  apply step_run in E as [E _]. cbn [run] in E. unfold create_big, fail, answer in E.
  open E; injection E as <- <-; cbn [In app] in IN; try (intuition discriminate).
  destruct IN as [IN|[IN|[]]]; [discriminate|]. injection IN as <- _ _ _ _ <-.
  match goal with K : new_bises _ _ _ = Some _ |- _ => apply new_bises_spec in K as (N & ND & LEN & IN & OUT); [|exact A2] end.
  split; [reflexivity|]. split.
  { specialize (B b). match goal with K : has (bigs s) b = false |- _ => rewrite has_lookup in K end. destruct (lookup (bigs s) b); [discriminate|].
    destruct (lookup (broadcasts h) b); [discriminate|reflexivity]. }
  split. { unfold lenN. rewrite LEN. change (lenN (range 1 (N.to_nat num)) = num). rewrite range_length, N2Nat.id. reflexivity. }
  split; [exact ND|]. split; [reflexivity|]. split; [intros x X; apply IN; exact X|].
  intros c a ks K. split.
  - intros ->. specialize (B c). rewrite K in B. cbn in B. destruct (lookup (bigs s) c) as [y|] eqn:LB; [|discriminate].
    injection B as B. assert (existsb (fun x => big_adv x =? adv) (values (bigs s)) = true); [|congruence].
    apply existsb_exists. exists y. split; [apply lookup_pair in LB; unfold values; apply in_map_iff; exists (c, y); auto|].
    rewrite B. apply N.eqb_refl.
  - intros x X Y. destruct (D _ _ _ K) as [_ D2]. destruct (D2 x Y) as (_ & i & D4 & _). destruct (IN x X) as (_ & Z & _). congruence.
Qed.

Lemma big_disjoint ck P h s b c a a' hs ks x :
  history ck P h s -> lookup (broadcasts h) b = Some (a, hs) -> lookup (broadcasts h) c = Some (a', ks) ->
  In x hs -> In x ks -> b = c.
Proof.
  intros H L1 L2 I1 I2. pose proof (history_big _ _ _ _ H) as [_ _ _ D _].
  destruct (D _ _ _ L1) as [_ D1]. destruct (D _ _ _ L2) as [_ D2].
  destruct (D1 x I1) as (_ & i & K1 & <-). destruct (D2 x I2) as (_ & j & K2 & <-). congruence.
Qed.

Lemma big_terminated ck P h s e b r s' out :
  history ck P h s -> step ck e s (TerminateBig b r) = Ok s' out -> b <= 0xef ->
  (lookup (broadcasts h) b <> None -> out = [Event (Answer OP_TERMINATE_BIG SUCCESS []); Event (BigTerminated b r)]) /\
  (lookup (broadcasts h) b = None -> out = [Event (Answer OP_TERMINATE_BIG UNKNOWN_ADVERTISING [])]).
Proof.
  intros H E R. pose proof (history_big _ _ _ _ H) as [_ B _ _ _]. specialize (B b).
  apply step_run in E as [E _]. cbn [run] in E. unfold terminate_big, fail, answer in E.
  assert (0xef <? b = false) as K by (apply N.ltb_ge; exact R). rewrite K in E. rewrite has_lookup in E.
  destruct (lookup (bigs s) b), (lookup (broadcasts h) b); try discriminate; cbn in E; injection E as <- <-;
    (split; intros X; [try reflexivity; now elim X|try reflexivity; discriminate]).
Qed.

Lemma big_accepted ck P h s e b adv num iv sdu lat rtn phy s' out :
  history ck P h s -> step ck e s (CreateBig b adv num iv sdu lat rtn phy) = Ok s' out ->
  b <= 0xef -> adv <= 0xef -> lookup (broadcasts h) b = None -> periodic e adv = Some true ->
  (forall c a ks, lookup (broadcasts h) c = Some (a, ks) -> a <> adv) ->
  1 <= num <= 0x1f -> 0xff <= iv <= 0xfffff -> 1 <= sdu <= 0xfff -> 5 <= lat <= 0xfa0 -> rtn <= 0xf -> phy <> 0 ->
  exists x1 x2 x3 x4 hs, out = [Event (Answer OP_CREATE_BIG SUCCESS []); Event (BigCreated b x1 x2 x3 x4 hs)].
Proof.
  intros H E B1 B2 L PE NA R1 R2 R3 R4 R5 R6. pose proof (history_big _ _ _ _ H) as [_ B _ _ _].
  apply step_run in E as [E _]. cbn [run] in E. unfold create_big, fail, answer in E.
  assert (0xef <? b = false) as K1 by (apply N.ltb_ge; exact B1). assert (0xef <? adv = false) as K2 by (apply N.ltb_ge; exact B2).
  rewrite K1, K2, PE, has_lookup in E. pose proof (B b) as Bb. rewrite L in Bb. destruct (lookup (bigs s) b); [discriminate|].
  assert (K3 : existsb (fun x => big_adv x =? adv) (values (bigs s)) = false).
  { destruct (existsb _ _) eqn:X; [|reflexivity]. apply existsb_exists in X as (y & Y1 & Y2). apply N.eqb_eq in Y2.
    unfold values in Y1. apply in_map_iff in Y1 as ([c z] & Y3 & Y4). cbn in Y3. subst z.
    apply in_lookup_nodup in Y4; [|apply (history_big _ _ _ _ H)]. specialize (B c). rewrite Y4 in B. cbn in B.
    destruct (lookup (broadcasts h) c) as [[a ks]|] eqn:LC; [|discriminate]. cbn in B. injection B as B.
    elim (NA _ _ _ LC). congruence. }
  rewrite K3 in E. unfold within in E.
  assert (forall x, x = true -> negb x = false) as NT by (intros ? ->; reflexivity).
  rewrite !NT in E by (rewrite andb_true_iff, !N.leb_le; lia).
  assert (0x0f <? rtn = false) as K4 by (apply N.ltb_ge; exact R5). assert (phy =? 0 = false) as K5 by (apply N.eqb_neq; exact R6).
  rewrite K4, K5 in E. open E. injection E as <- <-. cbn [app]. eauto 10.
Qed.
