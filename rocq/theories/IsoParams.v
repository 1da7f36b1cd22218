(** The parameters of stream requests and of the reports to the hosts. *)
From Verif Require Import Prelude Table Iso IsoSpec IsoProofs IsoMore IsoLife IsoSafe.
Open Scope N_scope.
Ltac Zify.zify_post_hook ::= Z.div_mod_to_equations.

Definition describes (ck : bool) (o : op) (x : cig) : Prop :=
  match o with
  | SetCig _ cp pc fr lc lp _ =>
      sdu_cp x = cp /\ sdu_pc x = pc /\ framed x = fr /\ ft_cp x = 1 /\ ft_pc x = 1 /\
      iso_interval_of ck cp pc fr (lc * 1000) (lp * 1000) = Some (Some (iso_interval x))
  | SetCigTest _ cp pc fc fp iso fr _ =>
      sdu_cp x = cp /\ sdu_pc x = pc /\ framed x = fr /\ ft_cp x = fc /\ ft_pc x = fp /\ iso_interval x = iso
  | _ => False
  end.

Definition group_agrees (ck : bool) (o : option op) (x : option cig) : Prop :=
  match x with Some x => exists o', o = Some o' /\ describes ck o' x | None => o = None end.

Lemma freeze_groups ck l g o : forall s s',
  freeze l s = Some s' -> group_agrees ck o (lookup (cigs s) g) -> group_agrees ck o (lookup (cigs s') g).
Proof.
  induction l as [|r l IH]; intros s s' H G; cbn [freeze] in H; [now injection H as <-|].
  open H. apply (IH _ _ H). cbn [cigs with_cigs]. rewrite lookup_put. destruct (N.eqb_spec g (r_cig r)) as [->|]; [|exact G].
  rewrite E in G. destruct G as (o' & -> & D). exists o'. split; [reflexivity|]. destruct o'; exact D.
Qed.

Lemma sets_describes ck e s o s' out g l :
  sets o = Some (g, l) -> run ck e s o = Some (s', out) -> accepted (Moment e o out) = true ->
  exists x, describes ck o x /\ lookup (cigs s') g = Some x /\
    (forall k, k <> g -> lookup (cigs s') k = lookup (cigs s) k).
Proof.
  intros S H A. destruct o; try discriminate S; injection S as -> ->; cbn [run] in H.
  - unfold set_cig, fail, answer in H. open H; injection H as <- <-; try discriminate A.
    { exfalso. eapply check_entries_error; [eassumption|]. unfold accepted in A. cbn in A.
      rewrite orb_false_r in A. now apply N.eqb_eq in A. }
    match goal with K : add_entries _ _ _ = Some _ |- _ => apply add_entries_groups in K as -> end.
    eexists. cbn [cigs with_cigs]. rewrite lookup_put, N.eqb_refl. split; [|split; [reflexivity|]].
    + cbn [describes sdu_cp sdu_pc framed ft_cp ft_pc iso_interval]. auto 10.
    + intros k K. rewrite lookup_put. now apply N.eqb_neq in K as ->.
  - unfold set_cig_test, fail, answer in H. open H; injection H as <- <-; try discriminate A.
    { exfalso. eapply check_entries_error; [eassumption|]. unfold accepted in A. cbn in A.
      rewrite orb_false_r in A. now apply N.eqb_eq in A. }
    match goal with K : add_entries _ _ _ = Some _ |- _ => apply add_entries_groups in K as -> end.
    eexists. cbn [cigs with_cigs]. rewrite lookup_put, N.eqb_refl. split; [|split; [reflexivity|]].
    + cbn. auto 10.
    + intros k K. rewrite lookup_put. now apply N.eqb_neq in K as ->.
Qed.

Lemma history_groups ck (P : state -> op -> Prop) h s g :
  history ck P h s -> group_agrees ck (group_of g h) (lookup (cigs s) g).
Proof.
  intros H. induction H as [|h s e o s' out H IH Q E]; [reflexivity|].
  apply step_run in E as [E _]. cbn [group_of].
  destruct (accepted (Moment e o out)) eqn:AC.
  2:{ destruct (groups_kept _ _ _ _ _ _ E) as [-> _]; auto. cbn [what]. destruct o; exact IH. }
  destruct (sets o) as [[g' l]|] eqn:S.
  - destruct (sets_describes _ _ _ _ _ _ _ _ S E AC) as (x & X1 & X2 & X3).
    assert (match what (Moment e o out) with
      | SetCig g' _ _ _ _ _ _ | SetCigTest g' _ _ _ _ _ _ _ =>
          if true && (g' =? g) then Some (what (Moment e o out)) else group_of g h
      | RemoveCig g' => if true && (g' =? g) then None else group_of g h
      | _ => group_of g h end = if g' =? g then Some o else group_of g h) as ->.
    { destruct o; try discriminate S; injection S as -> ->; reflexivity. }
    destruct (N.eqb_spec g' g) as [->|Ne]; [rewrite X2; cbn; eauto|]. rewrite X3 by congruence. exact IH.
  - destruct o; try discriminate S; cbn [what];
      try (destruct (groups_kept _ _ _ _ _ _ E) as [-> _]; auto; intros; left; discriminate).
    + cbn [run] in E. unfold remove_cig, fail, answer in E. open E; injection E as <- <-; try discriminate AC.
      cbn [cigs with_conns with_configs with_cigs]. rewrite lookup_erase, (N.eqb_sym g0 g).
      destruct (g =? g0); [reflexivity|exact IH].
    + cbn [run] in E. unfold create_cis, fail, answer in E. open E; injection E as <- <-; try discriminate AC.
      { exfalso. eapply check_requests_error; [eassumption|]. unfold accepted in AC. cbn in AC.
        rewrite orb_false_r in AC. now apply N.eqb_eq in AC. }
      match goal with K : deque _ = Some _ |- _ => apply deque_groups in K as [-> _] end. cbn [cigs with_queue].
      eapply freeze_groups; eauto.
Qed.

(** Configurations *)
Lemma key_eq g c g' c' : byte c -> byte c' -> key g c = key g' c' -> g = g' /\ c = c'.
Proof. unfold key, byte. lia. Qed.

Lemma entry_of_cons c n l : entry_of c (n :: l) = match entry_of c l with Some m => Some m | None => if n_id n =? c then Some n else None end.
Proof.
  unfold entry_of. cbn [rev]. generalize (rev l) as k. induction k as [|m k IH]; cbn [app find].
  - destruct (n_id n =? c); reflexivity.
  - destruct (n_id m =? c); [reflexivity|exact IH].
Qed.

Lemma add_entries_configs g l g' c : forall s s' hs,
  byte c -> Forall entry_fields l -> add_entries g l s = Some (s', hs) ->
  lookup (configs s') (key g' c) =
    if g =? g' then match entry_of c l with Some n => Some (n_config n) | None => lookup (configs s) (key g' c) end
    else lookup (configs s) (key g' c).
Proof.
  induction l as [|n l IH]; intros s s' hs B F H; cbn [add_entries] in H.
  - injection H as <- <-. cbn. destruct (g =? g'); reflexivity.
  - inversion F as [|? ? F1 F2]; subst. open H. injection H as <- <-. rewrite (IH _ _ _ B F2 E0), entry_of_cons.
    assert (configs s0 = put (configs s) (key g (n_id n)) (n_config n)) as ->.
    { unfold new_cis in E. open E; injection E as <- <-; reflexivity. }
    rewrite lookup_put. destruct (N.eqb_spec g g') as [<-|Ne].
    + destruct (entry_of c l); [reflexivity|]. destruct (N.eqb_spec (key g c) (key g (n_id n))) as [K|K].
      * destruct (key_eq _ _ _ _ B (proj1 F1) K) as [_ K']. rewrite <- K', N.eqb_refl. reflexivity.
      * destruct (N.eqb_spec (n_id n) c) as [Q|]; [rewrite Q in K; congruence|reflexivity].
    + destruct (N.eqb_spec (key g' c) (key g (n_id n))) as [K|K]; [|reflexivity].
      destruct (key_eq _ _ _ _ B (proj1 F1) K). congruence.
Qed.

Lemma lookup_filter_key {C} (f : N -> bool) (m : table C) h :
  lookup (filter (fun e => f (fst e)) m) h = if f h then lookup m h else None.
Proof.
  induction m as [|[k c] m IH]; cbn [filter lookup fst]; [now destruct (f h)|].
  destruct (f k) eqn:E; cbn [lookup]; destruct (N.eqb_spec k h) as [->|]; rewrite ?E in *; auto.
Qed.

Lemma history_configs ck (P : state -> op -> Prop) h s g c :
  (forall s o, P s o -> orderly s o) -> byte c ->
  history ck P h s -> lookup (configs s) (key g c) = option_map n_config (entry_for g c h).
Proof.
  intros PO B H. induction H as [|h s e o s' out H IH Q E]; [reflexivity|].
  apply step_run in E as [E _]. cbn [entry_for].
  destruct (accepted (Moment e o out)) eqn:AC.
  2:{ destruct (groups_kept _ _ _ _ _ _ E) as [_ ->]; auto. cbn [what]. destruct o; exact IH. }
  destruct (sets o) as [[g' l]|] eqn:S.
  - destruct (sets_run _ _ _ _ _ _ _ _ S E AC) as (x & hs & K & _).
    destruct (sets_fields _ _ _ S (proj1 (PO _ _ Q))) as [F1 F2].
    rewrite (add_entries_configs _ _ g c _ _ _ B F2 K). cbn [configs with_cigs].
    assert (match what (Moment e o out) with
      | SetCig g' _ _ _ _ _ l | SetCigTest g' _ _ _ _ _ _ l =>
          if true && (g' =? g) then match entry_of c l with Some n => Some n | None => entry_for g c h end
          else entry_for g c h
      | RemoveCig g' => if true && (g' =? g) then None else entry_for g c h
      | _ => entry_for g c h end =
      if g' =? g then match entry_of c l with Some n => Some n | None => entry_for g c h end else entry_for g c h) as ->.
    { destruct o; try discriminate S; injection S as -> ->; reflexivity. }
    destruct (g' =? g); [|exact IH]. destruct (entry_of c l); [reflexivity|exact IH].
  - destruct o; try discriminate S; cbn [what];
      try (destruct (groups_kept _ _ _ _ _ _ E) as [_ ->]; auto; intros; left; discriminate).
    + cbn [run] in E. unfold remove_cig, fail, answer in E. open E; injection E as <- <-; try discriminate AC.
      cbn [configs with_conns with_configs with_cigs].
      rewrite (lookup_filter_key (fun k => negb (k / 256 =? g0))).
      assert (key g c / 256 = g) as -> by (unfold key, byte in *; lia).
      rewrite (N.eqb_sym g0 g). destruct (g =? g0); [reflexivity|exact IH].
    + cbn [run] in E. unfold create_cis, fail, answer in E. open E; injection E as <- <-; try discriminate AC.
      { exfalso. eapply check_requests_error; [eassumption|]. unfold accepted in AC. cbn in AC.
        rewrite orb_false_r in AC. now apply N.eqb_eq in AC. }
      match goal with K : deque _ = Some _ |- _ => apply deque_groups in K as [_ ->] end. cbn [configs with_queue].
      match goal with K : freeze _ _ = Some _ |- _ => apply freeze_spec in K as (_ & _ & -> & _) end. exact IH.
Qed.

(** Requests sent *)
Lemma deque_sends s s' out a g c p :
  inv s -> deque s = Some (s', out) -> In (Send a (CisReq g c p)) out ->
  exists x y q, byte c /\ lookup (cigs s) g = Some x /\ lookup (configs s) (key g c) = Some y /\
    cis_parameters x y = Some q /\ p = with_cig_delay 0 (with_cis_delay 0 q).
Proof.
  intros I H IN. unfold deque in H. destruct (queue s) as [|r l] eqn:Q; [injection H as <- <-; destruct IN|].
  destruct (inv_requests _ I r) as (d & D1 & _ & _ & D4 & D5); [rewrite Q; now left|].
  destruct (inv_cis _ I _ _ D1) as (_ & _ & B & _). rewrite D5 in B.
  open H. injection H as <- <-. destruct IN as [IN|[]]. injection IN as <- <- <- <-. eauto 10.
Qed.

Lemma run_sends ck h s e o s' out a g c p :
  history ck orderly h s -> orderly s o -> run ck e s o = Some (s', out) -> In (Send a (CisReq g c p)) out ->
  exists o' n x q, group_of g h = Some o' /\ describes ck o' x /\ entry_for g c h = Some n /\
    cis_parameters x (n_config n) = Some q /\ p = with_cig_delay 0 (with_cis_delay 0 q).
Proof.
  intros H O E IN. pose proof (history_inv _ _ _ _ (fun _ _ H => H) H) as I.
  assert (K : forall s1 s2 out', inv s1 -> deque s1 = Some (s2, out') -> In (Send a (CisReq g c p)) out' ->
    group_agrees ck (group_of g h) (lookup (cigs s1) g) -> configs s1 = configs s ->
    exists o' n x q, group_of g h = Some o' /\ describes ck o' x /\ entry_for g c h = Some n /\
    cis_parameters x (n_config n) = Some q /\ p = with_cig_delay 0 (with_cis_delay 0 q)).
  { intros s1 s2 out' I1 D IN' G C. destruct (deque_sends _ _ _ _ _ _ _ I1 D IN') as (x & y & q & B & X & Y & Z & ->).
    rewrite X in G. destruct G as (o' & G1 & G2). rewrite C, (history_configs _ _ _ _ g c (fun _ _ H => H) B H) in Y.
    destruct (entry_for g c h) as [n|]; [|discriminate]. injection Y as <-. exists o', n, x, q. auto. }
  pose proof (history_groups _ _ _ _ g H) as G.
  destruct o; cbn [run] in E.
  - unfold set_cig, fail, answer in E. open E; injection E as <- <-; cbn in IN; intuition discriminate.
  - unfold set_cig_test, fail, answer in E. open E; injection E as <- <-; cbn in IN; intuition discriminate.
  - unfold remove_cig, fail, answer in E. open E; injection E as <- <-; cbn in IN; intuition discriminate.
  - pose proof E as E'. unfold create_cis, fail, answer in E. open E; injection E as <- <-; try (cbn in IN; intuition discriminate).
    apply in_app_iff in IN as [IN|IN]; [|cbn in IN; intuition discriminate].
    apply check_requests_spec in E0 as [C1 C2]; [|exact I|constructor|intros r []].
    match goal with FZ : freeze _ _ = Some _ |- _ => pose proof (freeze_groups _ _ _ _ _ _ FZ G) as G';
      apply freeze_spec in FZ as (F1 & F2 & F3 & F4 & F5 & F6 & F7) end.
    match goal with D : deque ?w = Some _ |- _ => apply (K w _ _) in D; auto end.
    destruct I as [I1 I2 I3 I4 I5]. split; cbn; rewrite ?F1; auto.
    + intros k d L. destruct (I2 k d L) as (U1 & U2 & U3 & U4 & U5 & U6 & U7).
      repeat (split; [assumption|]). intros X. destruct (U7 X) as [V1 V2]. cbn. rewrite F3. split; [|exact V2].
      rewrite F7. exact V1.
    + intros r Hr. destruct (C2 r Hr) as (c0 & L & KK). exists c0. cbn. rewrite F1. auto.
  - unfold accept_cis, fail, answer in E. open E; injection E as <- <-; cbn in IN; intuition discriminate.
  - unfold reject_cis, fail, answer in E. open E; injection E as <- <-; cbn in IN; intuition discriminate.
  - unfold setup_path, fail, answer in E. open E; injection E as <- <-; cbn in IN; intuition discriminate.
  - unfold remove_path, fail, answer in E. destruct (lookup (conns s) h0).
    + destruct (if role_eqb _ _ then _ else _) in E. open E; injection E as <- <-; cbn in IN; intuition discriminate.
    + open E; injection E as <- <-; cbn in IN; intuition discriminate.
  - unfold disconnect, fail, answer in E. open E; injection E as <- <-; cbn in IN; intuition discriminate.
  - unfold create_big, fail, answer in E. open E; injection E as <- <-; cbn in IN; intuition discriminate.
  - unfold terminate_big, fail, answer in E. open E; injection E as <- <-; cbn in IN; intuition discriminate.
  - unfold add_link in E. open E; injection E as <- <-; destruct IN.
  - unfold remove_link, remove_acl in E. open E. injection E as <- <-.
    apply in_app_iff in IN as [IN|IN]; apply in_flat_map in IN as (u & _ & IN).
    + unfold lost in IN. destruct (optN_eqb _ _); [|destruct IN]. destruct (c_phase u); cbn in IN; intuition discriminate.
    + destruct (r_acl u =? h0); cbn in IN; intuition discriminate.
  - destruct p0.
    + unfold cis_req in E. open E. injection E as <- <-. cbn in IN. intuition discriminate.
    + unfold cis_rsp in E. open E; injection E as <- <-; cbn [In] in IN; [|destruct IN].
      destruct IN as [IN|[IN|IN]]; try discriminate.
      assert (FC := E0). apply find_cis_spec in FC as (d & L & W); [|exact I]. apply waiting_spec in W as (_ & _ & W).
      match goal with D : deque ?w = Some _ |- _ => apply (K w _ _) in D; auto end.
      * eapply set_phase_connected_inv; eauto.
      * unfold set_phase. rewrite L. exact G.
      * unfold set_phase. rewrite L. reflexivity.
    + unfold cis_ind in E. open E; injection E as <- <-; cbn in IN; intuition discriminate.
    + unfold cis_terminate in E. open E; injection E as <- <-; cbn in IN; intuition discriminate.
    + unfold reject_ext in E. open E; injection E as <- <-; cbn [In] in IN; [|destruct IN].
      destruct IN as [IN|IN]; try discriminate.
      assert (FC := E1). apply find_cis_spec in FC as (d & L & W); [|exact I]. apply waiting_spec in W as (_ & W & W').
      rewrite E2 in L. injection L as ->.
      match goal with D : deque ?w = Some _ |- _ => apply (K w _ _) in D; auto end. apply reset_inv; auto.
    + discriminate.
Qed.

Lemma select_allowed phys phy : select_phy phys = Some phy -> allowed phys phy.
Proof.
  unfold select_phy, allowed. destruct (mem phys [2; 3; 6; 7]) eqn:M.
  - intros [= <-]. split; [cbn; auto|]. cbn in M. rewrite !orb_true_iff, !N.eqb_eq in M.
    intuition; subst; try reflexivity; discriminate.
  - destruct (mem phys [1; 5]) eqn:M1.
    + intros [= <-]. split; [cbn; auto|]. cbn in M1. rewrite !orb_true_iff, !N.eqb_eq in M1.
      intuition; subst; try reflexivity; discriminate.
    + destruct (N.eqb_spec phys 4) as [->|]; [|discriminate]. intros [= <-]. split; [cbn; auto|reflexivity].
Qed.

Lemma enough_value sdu : enough sdu (div_ceil sdu 251) 251.
Proof. unfold enough, div_ceil. lia. Qed.

Lemma parameters_carry ck o x c q :
  describes ck o x -> cis_parameters x c = Some q ->
  carries_group o (with_cig_delay 0 (with_cis_delay 0 q)) /\ carries_stream c (with_cig_delay 0 (with_cis_delay 0 q)) /\
  p_iso q = iso_interval x /\ p_iso q * 1250 / p_nse q = p_sub q.
Proof.
  intros D H. unfold cis_parameters in H. open H. injection H as <-.
  apply select_allowed in E2, E3. unfold carries_stream. cbn. split; [|split; [|split; reflexivity]].
  - destruct o; try destruct D; cbn in *; intuition.
  - split; [reflexivity|]. split; [reflexivity|]. split; [exact E2|]. split; [exact E3|].
    assert (X : forall o (sdu b : N), match o with Some y => Some y | None => to_u8 (div_ceil sdu 251) end = Some b ->
      match o with Some n => b = n | None => enough sdu b 251 end).
    { intros o0 sdu b. destruct o0; [congruence|]. unfold to_u8. destruct (_ <? _); [|discriminate].
      intros [= <-]. apply enough_value. }
    split; [destruct (set_nse c); reflexivity|]. split; [destruct (set_pdu_cp c); reflexivity|].
    split; [destruct (set_pdu_pc c); reflexivity|]. split; apply X; assumption.
Qed.

(** The ISO interval *)
Lemma wrap_checked x y : wrap true x = Some y -> x = y.
Proof. unfold wrap. destruct (x <? 2 ^ 32); [congruence|discriminate]. Qed.
Lemma sub_checked a b y : sub32 true a b = Some y -> y = a - b /\ b <= a.
Proof. unfold sub32. destruct (N.leb_spec b a); [intros [= <-]; auto|discriminate]. Qed.
Lemma lcm_checked a b y : lcm32 true a b = Some y -> y = N.lcm a b.
Proof.
  unfold lcm32. destruct ((a =? 0) && (b =? 0)) eqn:E.
  - rewrite andb_true_iff, !N.eqb_eq in E. destruct E as [-> ->]. intros [= <-]. reflexivity.
  - intros H. apply wrap_checked in H. symmetry. exact H.
Qed.

Lemma divides_mod a b : b <> 0 -> (b | a) -> a mod b = 0.
Proof. intros B D. now apply N.mod_divide. Qed.

Lemma interval_checked cp pc lc lp iso :
  iso_interval_of true cp pc false (lc * 1000) (lp * 1000) = Some (Some iso) ->
  (cp <> 0 -> (1250 * iso) mod cp = 0) /\ (pc <> 0 -> (1250 * iso) mod pc = 0) /\
  (cp <> 0 -> 1250 * iso + 1250 * iso - cp <= lc * 1000) /\ (pc <> 0 -> 1250 * iso + 1250 * iso - pc <= lp * 1000).
Proof.
  intros H. unfold iso_interval_of in H.
  apply bind_some in H as (both & B & H). apply bind_some in H as (w & W & H). apply bind_some in H as (tw & T & H).
  apply bind_some in H as (mc & C & H). apply bind_some in H as (mp & P & H).
  apply lcm_checked in W. apply wrap_checked in T. apply sub_checked in C as [C C'], P as [P P'].
  assert (D1 : (1250 | w)) by (subst w; apply N.divide_lcm_l).
  assert (D2 : (both | w)) by (subst w; apply N.divide_lcm_r). clear W.
  destruct (_ && _) eqn:K in H; [|discriminate]. rewrite !andb_true_iff, !orb_true_iff, !N.leb_le, !N.eqb_eq in K.
  destruct K as [[K1 K2] K3].
  assert (iso = w / 1250) as ->. { rewrite N.mod_small in H by (clear - K1; lia). congruence. }
  assert (W : 1250 * (w / 1250) = w). { destruct D1 as (q & ->). rewrite N.div_mul by discriminate. lia. }
  rewrite W.
  assert (D3 : cp <> 0 -> (cp | both)).
  { intros Z. apply N.eqb_neq in Z as Z'. rewrite Z' in B. cbn [andb] in B. destruct (pc =? 0); [injection B as <-; apply N.divide_refl|].
    apply lcm_checked in B as ->. apply N.divide_lcm_l. }
  assert (D4 : pc <> 0 -> (pc | both)).
  { intros Z. apply N.eqb_neq in Z as Z'. rewrite Z', andb_false_r in B. destruct (cp =? 0); [injection B as <-; apply N.divide_refl|].
    apply lcm_checked in B as ->. apply N.divide_lcm_r. }
  split; [|split; [|split]].
  - intros Z. apply divides_mod; auto. eapply N.divide_trans; eauto.
  - intros Z. apply divides_mod; auto. eapply N.divide_trans; eauto.
  - intros Z. destruct K2; [congruence|]. lia.
  - intros Z. destruct K3; [congruence|]. lia.
Qed.

(** The request for a stream says what the host configured. *)
Lemma request_carries ck h s e o s' out a g c p :
  history ck orderly h s -> orderly s o -> step ck e s o = Ok s' out -> In (Send a (CisReq g c p)) out ->
  exists o' n, group_of g h = Some o' /\ entry_for g c h = Some n /\ carries_group o' p /\ carries_stream (n_config n) p.
Proof.
  intros H O E IN. apply step_run in E as [E _].
  destruct (run_sends _ _ _ _ _ _ _ _ _ _ _ H O E IN) as (o' & n & x & q & G & D & F & C & ->).
  exists o', n. destruct (parameters_carry _ _ _ _ _ D C) as (A1 & A2 & _). auto.
Qed.

Lemma request_interval h s e o s' out a g c p :
  history true orderly h s -> orderly s o -> step true e s o = Ok s' out -> In (Send a (CisReq g c p)) out ->
  p_framed p = false -> exists o', group_of g h = Some o' /\ interval_fits o' (p_iso p).
Proof.
  intros H O E IN FR. apply step_run in E as [E _].
  destruct (run_sends _ _ _ _ _ _ _ _ _ _ _ H O E IN) as (o' & n & x & q & G & D & F & C & ->).
  destruct (parameters_carry _ _ _ _ _ D C) as (A1 & _ & A3 & _). exists o'. split; [exact G|].
  destruct o'; cbn [describes] in D; try destruct D; cbn [interval_fits]; auto.
  destruct A1 as (_ & _ & A1 & _). rewrite FR in A1. subst fr. cbn [p_iso with_cig_delay with_cis_delay]. rewrite A3.
  apply interval_checked. tauto.
Qed.
