(** The link layer does not crash when its inputs are sane. *)
From Verif Require Import Prelude Table Iso IsoSpec IsoProofs.
Open Scope N_scope.
Ltac Zify.zify_post_hook ::= Z.div_mod_to_equations.

Definition group_ok (g : cig) : Prop :=
  sdu_cp g <= 0xfffff /\ sdu_pc g <= 0xfffff /\
  latency_ok (iso_interval g) (ft_cp g) (sdu_cp g) (framed g) /\
  latency_ok (iso_interval g) (ft_pc g) (sdu_pc g) (framed g).

Definition config_ok (c : config) : Prop :=
  1 <= phy_cp c <= 7 /\ 1 <= phy_pc c <= 7 /\ max_sdu_cp c <= 0xfff /\ max_sdu_pc c <= 0xfff /\
  ((max_sdu_cp c <= 3765 /\ max_sdu_pc c <= 3765 /\ 0 < max_sdu_cp c + max_sdu_pc c /\
    set_nse c = None /\ set_bn_cp c = None /\ set_bn_pc c = None) \/
   (given (set_nse c) (fun x => 1 <= x) /\ given (set_bn_cp c) (fun x => x < 16) /\
    given (set_bn_pc c) (fun x => x < 16))).

Definition stream_ok (c : cis) : Prop :=
  forall p, c_params c = Some p -> params_ok p /\
    (c_role c = CENTRAL -> cig_delay p = 1250 * p_iso p /\ cis_delay p = 1250 * p_iso p).

Record safe (s : state) : Prop := {
  safe_inv : inv s;
  safe_cigs : forall k g, lookup (cigs s) k = Some g -> group_ok g;
  safe_configs : forall k c, lookup (configs s) k = Some c -> config_ok c;
  safe_streams : forall k c, lookup (conns s) k = Some c -> stream_ok c }.

Lemma safe_initial : safe initial.
Proof. split; [apply inv_initial| | |]; discriminate. Qed.

Section Safe.
Variable ck : bool.

Lemma wrap_small x : x < 2 ^ 32 -> wrap ck x = Some x.
Proof. intros H. unfold wrap. now apply N.ltb_lt in H as ->. Qed.

Lemma latency_value iso ft interval fr :
  latency_ok iso ft interval fr ->
  exists l, transport_latency ck (1250 * iso) iso ft interval fr = Some l /\ l < 2 ^ 24.
Proof.
  intros [H1 H2]. unfold transport_latency.
  replace (1250 * iso * (1 + ft)) with (1250 * iso + ft * (iso * 1250)) in * by lia.
  rewrite wrap_small by lia. cbn [bind]. rewrite wrap_small by lia. cbn [bind]. destruct fr.
  - rewrite wrap_small by lia. eexists. split; [reflexivity|lia].
  - destruct H2 as [H2|H2]; [discriminate|]. unfold sub32. apply N.leb_le in H2 as ->.
    eexists. split; [reflexivity|lia].
Qed.

Lemma phy_value p : In p [1; 2; 4] -> exists q, phy_code p = Some q.
Proof. cbn. intros [<-|[<-|[<-|[]]]]; cbv; eauto. Qed.

Lemma report_value r p :
  params_ok p -> cig_delay p = 1250 * p_iso p -> cis_delay p = 1250 * p_iso p ->
  exists rep, report_of ck r p = Some rep /\ report_fits rep = true.
Proof.
  intros (P1 & P2 & B1 & B2 & L1 & L2) D1 D2. unfold report_of. rewrite D1, D2.
  destruct (latency_value _ _ _ _ L1) as (x & -> & X). destruct (latency_value _ _ _ _ L2) as (y & -> & Y).
  destruct (phy_value _ P1) as (u & ->). destruct (phy_value _ P2) as (v & ->). cbn [bind].
  destruct L1 as [L1 _].
  assert (1250 * p_iso p < 2 ^ 24).
  { clear - L1. replace (1250 * p_iso p * (1 + p_ft_cp p)) with (1250 * p_iso p + 1250 * p_iso p * p_ft_cp p) in L1 by lia. lia. }
  apply N.ltb_lt in H, X, Y, B1, B2.
  destruct r; (eexists; split; [reflexivity|]); unfold report_fits; cbn [e_cig_delay e_cis_delay e_latency_cp e_latency_pc e_bn_cp e_bn_pc];
    rewrite H, X, Y, B1, B2; reflexivity.
Qed.

Lemma select_value p : 1 <= p <= 7 -> exists q, select_phy p = Some q /\ In q [1; 2; 4].
Proof.
  intros H. assert (p = 1 \/ p = 2 \/ p = 3 \/ p = 4 \/ p = 5 \/ p = 6 \/ p = 7) as K by lia.
  repeat destruct K as [->|K]; try subst p; (eexists; split; [reflexivity|cbn; auto]).
Qed.

Lemma parameters_value g c :
  group_ok g -> config_ok c ->
  exists p, cis_parameters g c = Some p /\ params_ok p /\ req_fits p = true /\
    cig_delay p = 1250 * p_iso p /\ cis_delay p = 1250 * p_iso p.
Proof.
  intros (G1 & G2 & G3 & G4) (P1 & P2 & S1 & S2 & C). unfold cis_parameters.
  destruct (select_value _ P1) as (q1 & E1 & Q1). destruct (select_value _ P2) as (q2 & E2 & Q2).
  assert (X : exists b1 b2,
    match set_bn_cp c with Some x => Some x | None => to_u8 (div_ceil (max_sdu_cp c) 251) end = Some b1 /\
    match set_bn_pc c with Some x => Some x | None => to_u8 (div_ceil (max_sdu_pc c) 251) end = Some b2 /\
    b1 < 16 /\ b2 < 16 /\ 1 <= unwrap_or (set_nse c) (N.max b1 b2)).
  { destruct C as [(C1 & C2 & C3 & -> & -> & ->)|((n & -> & N1) & (b1 & -> & B1) & (b2 & -> & B2))].
    - unfold to_u8, div_ceil, unwrap_or.
      assert (A : forall x, x <= 3765 -> (x + 251 - 1) / 251 < 16) by (intros; lia).
      pose proof (A _ C1) as A1. pose proof (A _ C2) as A2.
      exists ((max_sdu_cp c + 251 - 1) / 251), ((max_sdu_pc c + 251 - 1) / 251).
      assert ((max_sdu_cp c + 251 - 1) / 251 <? 256 = true) as -> by (apply N.ltb_lt; clear - A1; lia).
      assert ((max_sdu_pc c + 251 - 1) / 251 <? 256 = true) as -> by (apply N.ltb_lt; clear - A2; lia).
      repeat (split; [auto; fail|]). clear - C3. lia.
    - exists b1, b2. cbn. auto. }
  destruct X as (b1 & b2 & -> & -> & B1 & B2 & NSE). cbn [bind].
  assert (unwrap_or (set_nse c) (N.max b1 b2) =? 0 = false) as -> by (apply N.eqb_neq; lia).
  rewrite E1, E2. cbn [bind]. eexists. split; [reflexivity|].
  assert (W : 1250 * iso_interval g < 2 ^ 24).
  { destruct G3 as [G3 _]. clear - G3. replace (1250 * iso_interval g * (1 + ft_cp g)) with (1250 * iso_interval g + 1250 * iso_interval g * ft_cp g) in G3 by lia. lia. }
  split; [|split; [|split; cbn; lia]].
  - unfold params_ok. cbn. auto 10.
  - unfold req_fits. cbn [p_sdu_cp p_sdu_pc p_int_cp p_int_pc p_sub p_bn_cp p_bn_pc].
    assert (iso_interval g * 1250 / unwrap_or (set_nse c) (N.max b1 b2) < 2 ^ 24).
    { eapply N.le_lt_trans; [|exact W]. rewrite (N.mul_comm 1250). apply N.div_le_upper_bound; [lia|].
      clear - NSE. nia. }
    rewrite !andb_true_iff, !N.ltb_lt. repeat split; auto; clear - S1 S2 G1 G2; lia.
Qed.

Lemma has_value {C} (m : table C) k : has m k = true -> exists c, lookup m k = Some c.
Proof. rewrite has_lookup. destruct (lookup m k); [eauto|discriminate]. Qed.

Lemma deque_value s : safe s -> exists s' out, deque s = Some (s', out) /\ forallb fits out = true /\ safe s'.
Proof.
  intros S. unfold deque. destruct (queue s) as [|r q] eqn:Q; [exists s, []; auto|].
  destruct (inv_requests _ (safe_inv _ S) r) as (d & D1 & D2 & D3 & D4 & D5); [rewrite Q; now left|].
  destruct (inv_cis _ (safe_inv _ S) _ _ D1) as (A & B & C & C' & D & F & G).
  destruct (G D2) as [G1 G2]. rewrite D4, D5 in *. apply has_value in G1 as (g & G1), G2 as (c & G2).
  rewrite G2, G1, D1. cbn [bind].
  destruct (parameters_value g c) as (p & P1 & P2 & P3 & P4 & P5).
  { eapply safe_cigs; eauto. } { eapply safe_configs; eauto. }
  rewrite P1. cbn [bind]. eexists. eexists. split; [reflexivity|]. split.
  - cbn [forallb fits]. rewrite andb_true_r. exact P3.
  - split.
    + eapply deque_inv; [apply (safe_inv _ S)|]. unfold deque. rewrite Q, G2, G1, D1. cbn [bind]. rewrite P1. reflexivity.
    + exact (safe_cigs _ S).
    + exact (safe_configs _ S).
    + intros k x. cbn. rewrite lookup_put. destruct (k =? r_handle r).
      * intros [= <-] p0. cbn. intros [= <-]. auto.
      * apply (safe_streams _ S).
Qed.

Lemma safe_stream s h c :
  safe s -> inv (with_conns (put (conns s) h c) s) -> stream_ok c -> safe (with_conns (put (conns s) h c) s).
Proof.
  intros S I O. split; [exact I|exact (safe_cigs _ S)|exact (safe_configs _ S)|].
  intros k d. cbn. rewrite lookup_put. destruct (k =? h); [intros [= <-]; exact O|apply (safe_streams _ S)].
Qed.

(** The other state components do not matter *)
Lemma safe_same s s' :
  safe s -> conns s' = conns s -> queue s' = queue s -> cigs s' = cigs s -> configs s' = configs s -> safe s'.
Proof.
  intros S E1 E2 E3 E4. split.
  - apply (inv_same_streams s); auto. apply S.
  - rewrite E3. apply S.
  - rewrite E4. apply S.
  - rewrite E1. apply S.
Qed.

(** Whatever only shortens the list of streams *)
Lemma safe_fewer s s' :
  safe s -> inv s' ->
  (forall k g, lookup (cigs s') k = Some g -> lookup (cigs s) k = Some g) ->
  (forall k g, lookup (configs s') k = Some g -> lookup (configs s) k = Some g) ->
  (forall k c, lookup (conns s') k = Some c -> exists d, lookup (conns s) k = Some d /\
     c_params c = c_params d /\ c_role c = c_role d) -> safe s'.
Proof.
  intros S I C1 C2 C3. split; auto.
  - intros k g L. apply C1 in L. eapply safe_cigs; eauto.
  - intros k g L. apply C2 in L. eapply safe_configs; eauto.
  - intros k c L. destruct (C3 _ _ L) as (d & D1 & D2 & D3). unfold stream_ok. rewrite D2, D3.
    apply (safe_streams _ S _ _ D1).
Qed.

Lemma find_none_range (m : table cis) n : forall a,
  find (fun h => negb (has m h)) (range a n) = None -> (n <= length m)%nat.
Proof.
  intros a H. assert (X : incl (range a n) (keys m)).
  { intros x Hx. apply has_spec. eapply find_none in H; [|exact Hx]. now apply negb_false_iff in H. }
  assert (N : NoDup (range a n)).
  { clear. revert a. induction n as [|n IH]; intros a; cbn; constructor; auto. rewrite range_in. lia. }
  assert (LEN : length (range a n) = n). { clear. revert a. induction n; intros a; cbn; auto. }
  rewrite <- LEN. rewrite <- (map_length fst m). apply NoDup_incl_length; assumption.
Qed.

Lemma new_handle_value s : lenN (conns s) < 254 -> exists h, new_cis_handle s = Some h.
Proof.
  intros H. unfold new_cis_handle. destruct (find _ _) as [h|] eqn:F; [eauto|].
  apply find_none_range in F. unfold lenN in H. lia.
Qed.

Lemma put_length {C} (m : table C) h c : lenN (put m h c) <= lenN m + 1.
Proof.
  induction m as [|[k d] m IH].
  - change (put [] h c) with [(h, c)]. rewrite lenN_cons. lia.
  - change (put ((k, d) :: m) h c) with (if k =? h then (h, c) :: m else (k, d) :: put m h c).
    destruct (k =? h); rewrite !lenN_cons; lia.
Qed.

Lemma add_entries_value g l : forall s,
  byte g -> Forall entry_fields l -> Forall (fun n => config_ok (n_config n)) l ->
  safe s -> has (cigs s) g = true -> lenN (conns s) + lenN l <= 254 ->
  exists s' hs, add_entries g l s = Some (s', hs) /\ safe s'.
Proof.
  induction l as [|n l IH]; intros s B F K S G R; cbn [add_entries].
  - exists s, []. auto.
  - inversion F as [|? ? F1 F2]; subst. inversion K as [|? ? K1 K2]; subst. rewrite lenN_cons in R.
    set (s1 := with_configs (put (configs s) (key g (n_id n)) (n_config n)) s).
    assert (S1 : safe s1).
    { split; [|exact (safe_cigs _ S)| |exact (safe_streams _ S)].
      - apply (inv_more s); auto. apply S. cbn. intros k X. rewrite has_put, X. apply orb_true_r.
      - intros k c. cbn. rewrite lookup_put. destruct (k =? _); [intros [= <-]; exact K1|apply (safe_configs _ S)]. }
    assert (X : exists s2 h, new_cis g (n_id n) CENTRAL s1 = Some (s2, h) /\ safe s2 /\ cigs s2 = cigs s1 /\
                lenN (conns s2) <= lenN (conns s) + 1).
    { unfold new_cis. destruct (find _ _) as [x|] eqn:E.
      - exists s1, (c_handle x). split; [reflexivity|]. split; [exact S1|]. split; [reflexivity|].
        change (conns s1) with (conns s). lia.
      - destruct (new_handle_value s1) as (h & H); [change (conns s1) with (conns s); lia|]. rewrite H. cbn [bind].
        eexists. exists h. split; [reflexivity|]. split; [|split; [reflexivity|cbn; apply put_length]].
        apply safe_stream; [exact S1| |].
        + eapply (new_cis_inv g (n_id n)); [apply S1|exact B|apply F1| | |].
          * exact G. * cbn. now rewrite has_put, N.eqb_refl. * unfold new_cis. rewrite E, H. reflexivity.
        + intros p. cbn. discriminate. }
    destruct X as (s2 & h & -> & S2 & E2 & L2). cbn [bind].
    destruct (IH s2) as (s3 & hs & -> & S3); auto.
    + rewrite E2. exact G.
    + lia.
    + cbn [bind]. eauto.
Qed.

Lemma unsupported_small e x : x < 256 -> unsupported e x = false -> x <= 7.
Proof.
  unfold unsupported. rewrite negb_false_iff. intros H L.
  assert (forallb (fun x => forallb (fun m => negb (N.land x (255 - m) =? 0) || (x <=? 7)) [1; 3; 5; 7]) (range 0 256) = true) as K by (vm_compute; reflexivity).
  rewrite forallb_forall in K. specialize (K x). rewrite range_in in K. specialize (K ltac:(lia)).
  rewrite forallb_forall in K. specialize (K (1 + (if le_2m e then 2 else 0) + (if le_coded e then 4 else 0))).
  assert (In (1 + (if le_2m e then 2 else 0) + (if le_coded e then 4 else 0)) [1; 3; 5; 7]) as J
    by (destruct (le_2m e), (le_coded e); cbn; auto).
  specialize (K J). rewrite L in K. cbn [negb orb] in K. now apply N.leb_le in K.
Qed.

Lemma check_entries_spec e g s l : check_entries e g s l = None -> Forall entry_fields l ->
  Forall (fun n => 1 <= phy_cp (n_config n) <= 7 /\ 1 <= phy_pc (n_config n) <= 7 /\
                   max_sdu_cp (n_config n) <= 0xfff /\ max_sdu_pc (n_config n) <= 0xfff) l.
Proof.
  induction l as [|n l IH]; cbn [check_entries]; intros H F; [constructor|].
  inversion F as [|? ? F1 F2]; subst. destruct (check_entry e g s n) eqn:C; [discriminate|].
  constructor; [|auto]. destruct F1 as (_ & _ & _ & B1 & B2). unfold check_entry in C.
  destruct (match find _ _ with Some _ => _ | None => _ end) as [u v].
  destruct ((_ =? 0) || _) eqn:E1 in C; [discriminate|].
  destruct (unsupported _ _ || _) eqn:E2 in C; [discriminate|].
  destruct (_ && u) in C; [discriminate|]. destruct (_ && v) in C; [discriminate|].
  destruct ((_ <? _) || _) eqn:E3 in C; [discriminate|].
  rewrite orb_false_iff in E1, E2, E3. destruct E1 as [X1 X2], E2 as [Y1 Y2], E3 as [Z1 Z2].
  apply unsupported_small in Y1, Y2; auto. lia.
Qed.

(** The ISO interval chosen for a plain group *)
Lemma lcm_value a b : a <> 0 -> N.lcm a b < 2 ^ 32 -> lcm32 ck a b = Some (N.lcm a b).
Proof.
  intros A H. unfold lcm32. apply N.eqb_neq in A as ->. cbn [andb]. apply wrap_small. exact H.
Qed.

Lemma common_multiple cp pc : cp + pc <> 0 -> common cp pc <> 0 /\ cp <= common cp pc /\ pc <= common cp pc.
Proof.
  intros H. unfold common. destruct (N.eqb_spec cp 0) as [->|A]; [lia|]. destruct (N.eqb_spec pc 0) as [->|B]; [lia|].
  pose proof (N.divide_lcm_l cp pc) as D1. pose proof (N.divide_lcm_r cp pc) as D2.
  assert (N.lcm cp pc <> 0) as L by (intros E; apply N.lcm_eq_0 in E; lia).
  split; [exact L|]. split; apply N.divide_pos_le; auto; lia.
Qed.

Lemma interval_value cp pc fr lc lp :
  cp <= 0xfffff -> pc <= 0xfffff -> lc <= 0xfa0 -> lp <= 0xfa0 ->
  (fr = true \/ (cp + pc <> 0 /\ 2 * N.lcm 1250 (common cp pc) < 2 ^ 32)) ->
  exists r, iso_interval_of ck cp pc fr (lc * 1000) (lp * 1000) = Some r /\
    forall iso, r = Some iso -> latency_ok iso 1 cp fr /\ latency_ok iso 1 pc fr.
Proof.
  intros C1 C2 L1 L2 H. unfold iso_interval_of. destruct fr.
  - eexists. split; [reflexivity|]. intros iso [= <-]. unfold latency_ok, div_ceil.
    assert ((N.max cp pc + 1250 - 1) / 1250 < 1000) by lia.
    rewrite N.mod_small by (clear - H0; lia). split; (split; [|auto]); clear - H0 C1 C2; lia.
  - destruct H as [H|[H1 H2]]; [discriminate|].
    destruct (common_multiple cp pc H1) as (K1 & K2 & K3).
    assert (X : (if (cp =? 0) && (pc =? 0) then None else if cp =? 0 then Some pc else if pc =? 0 then Some cp
             else lcm32 ck cp pc) = Some (common cp pc)).
    { unfold common in *. destruct (N.eqb_spec cp 0) as [->|A], (N.eqb_spec pc 0) as [->|B]; cbn [andb]; auto; [lia|].
      apply lcm_value; auto.
      assert (N.lcm cp pc <= N.lcm 1250 (N.lcm cp pc)); [|lia].
      apply N.divide_pos_le; [|apply N.divide_lcm_r].
      assert (N.lcm 1250 (N.lcm cp pc) <> 0); [|lia]. intros E. apply N.lcm_eq_0 in E. lia. }
    rewrite X. cbn [bind]. set (m := common cp pc) in *.
    assert (M0 : N.lcm 1250 m <> 0) by (intros E; apply N.lcm_eq_0 in E; lia).
    assert (MM : m <= N.lcm 1250 m) by (apply N.divide_pos_le; [lia|apply N.divide_lcm_r]).
    assert (MD : (1250 | N.lcm 1250 m)) by apply N.divide_lcm_l.
    rewrite lcm_value by (clear - H2; lia). cbn [bind]. rewrite wrap_small by exact H2. cbn [bind].
    clear X. remember (N.lcm 1250 m) as w eqn:W. clear W.
    unfold sub32. assert (cp <=? 2 * w = true) as -> by (apply N.leb_le; lia).
    assert (pc <=? 2 * w = true) as -> by (apply N.leb_le; lia). cbn [bind].
    eexists. split; [reflexivity|]. intros iso E. destruct (_ && _) eqn:T in E; [|discriminate]. injection E as <-.
    rewrite !andb_true_iff, !orb_true_iff, !N.leb_le, !N.eqb_eq in T. destruct T as [[T1 T2] T3].
    rewrite N.mod_small by (clear - T1; lia).
    destruct MD as (q & MD). rewrite MD in *. rewrite N.div_mul in * by discriminate.
    unfold latency_ok. clear - T1 T2 T3 MM K1 K2 K3 C1 C2 L1 L2 H1. lia.
Qed.

Lemma safe_group s g x : safe s -> group_ok x -> safe (with_cigs (put (cigs s) g x) s).
Proof.
  intros S G. split; [| |exact (safe_configs _ S)|exact (safe_streams _ S)].
  - apply (inv_more s); auto. apply S. cbn. intros k X. rewrite has_put, X. apply orb_true_r.
  - intros k y. cbn. rewrite lookup_put. destruct (k =? g); [intros [= <-]; exact G|apply (safe_cigs _ S)].
Qed.

Definition good (r : option (state * list output)) : Prop :=
  exists s out, r = Some (s, out) /\ forallb fits out = true /\ safe s.

Lemma good_fail o st s : safe s -> good (fail o st s).
Proof. intros S. exists s, (answer o st []). split; [reflexivity|]. split; [reflexivity|exact S]. Qed.

Lemma forall_and {A} (P Q : A -> Prop) l : Forall P l -> Forall Q l -> Forall (fun x => P x /\ Q x) l.
Proof. rewrite !Forall_forall. auto. Qed.

Lemma set_cig_good e g cp pc fr lc lp l s :
  safe s -> sane s (SetCig g cp pc fr lc lp l) -> good (set_cig ck e g cp pc fr lc lp l s).
Proof.
  intros S [[(F1 & _ & _ & _ & _ & F2 & F3) _] (R & C1 & C2 & L1 & L2 & H & K)]. unfold set_cig.
  destruct (negb _); [now apply good_fail|]. destruct (check_entries e g s l) eqn:C; [now apply good_fail|]. cbv zeta.
  destruct (_ || _) in |- *; [now apply good_fail|]. destruct (_ || _) in |- *; [now apply good_fail|].
  destruct (interval_value _ _ _ _ _ C1 C2 L1 L2 H) as (r & -> & I). cbn [bind].
  destruct r as [iso|]; [|now apply good_fail]. destruct (I iso eq_refl) as [I1 I2].
  assert (S1 : safe (with_cigs (put (cigs s) g (Cig iso cp pc 1 1 fr true)) s)) by (apply safe_group; [exact S|split; auto]).
  destruct (add_entries_value g l (with_cigs (put (cigs s) g (Cig iso cp pc 1 1 fr true)) s) F1 F2)
    as (s' & hs & -> & S'); auto.
  - eapply Forall_impl; [|exact (forall_and _ _ _ (check_entries_spec _ _ _ _ C F2) (forall_and _ _ _ K F3))].
    intros n ((A1 & A2 & A3 & A4) & (B1 & B2 & B3) & (D1 & D2 & D3 & D4 & D5)). unfold config_ok. auto 12.
  - cbn. now rewrite has_put, N.eqb_refl.
  - cbn [bind]. exists s', (answer OP_SET_CIG SUCCESS hs). auto.
Qed.

Lemma set_cig_test_good e g cp pc fc fp iso fr l s :
  safe s -> sane s (SetCigTest g cp pc fc fp iso fr l) -> good (set_cig_test e g cp pc fc fp iso fr l s).
Proof.
  intros S [[(F1 & _ & _ & _ & _ & _ & F2 & F3) _] (R & C1 & C2 & L1 & L2 & K)]. unfold set_cig_test.
  destruct (negb _); [now apply good_fail|]. destruct (check_entries e g s l) eqn:C; [now apply good_fail|].
  destruct (_ || _) in |- *; [now apply good_fail|].
  assert (S1 : safe (with_cigs (put (cigs s) g (Cig iso cp pc fc fp fr true)) s)) by (apply safe_group; [exact S|split; auto]).
  destruct (add_entries_value g l (with_cigs (put (cigs s) g (Cig iso cp pc fc fp fr true)) s) F1 F2)
    as (s' & hs & -> & S'); auto.
  - eapply Forall_impl; [|exact (forall_and _ _ _ (check_entries_spec _ _ _ _ C F2) K)].
    intros n ((A1 & A2 & A3 & A4) & B). unfold config_ok. auto 12.
  - cbn. now rewrite has_put, N.eqb_refl.
  - cbn [bind]. exists s', (answer OP_SET_CIG_TEST SUCCESS hs). auto.
Qed.

Lemma freeze_value l : forall s, safe s -> (forall r, In r l -> has (cigs s) (r_cig r) = true) ->
  exists s', freeze l s = Some s' /\ safe s'.
Proof.
  induction l as [|r l IH]; intros s S H; cbn [freeze]; [eauto|].
  destruct (has_value _ _ (H r (or_introl eq_refl))) as (g & G). rewrite G. cbn [bind]. apply IH.
  - apply safe_group; [exact S|]. exact (safe_cigs _ S _ _ G).
  - intros q Q. cbn. rewrite has_put, H by (now right). apply orb_true_r.
Qed.

Lemma create_good e l s : safe s -> good (create_cis e l s).
Proof.
  intros S. unfold create_cis. destruct (check_requests s l []) as [st|rs] eqn:C; [now apply good_fail|].
  destruct (queue s) eqn:Q; [|now apply good_fail]. destruct (negb _); [now apply good_fail|].
  apply check_requests_spec in C as [C1 C2]; [|apply S|constructor|intros r []].
  destruct (freeze_value rs s S) as (s1 & F & S1).
  { intros r R. destruct (C2 r R) as (c & L & E1 & _ & E2 & _).
    destruct (inv_cis _ (safe_inv _ S) _ _ L) as (_ & _ & _ & _ & _ & _ & G). rewrite <- E2. apply G, E1. }
  rewrite F. cbn [bind]. apply freeze_spec in F as (F1 & F2 & F3 & _).
  assert (S2 : safe (with_queue rs s1)).
  { destruct S1 as [[I1 I2 I3 I4 I5] G1 G2 G3]. split; auto. split; auto.
    cbn. intros r R. destruct (C2 r R) as (c & L & K). exists c. cbn. rewrite F1. auto. }
  destruct (deque_value _ S2) as (s3 & o & -> & O & S3). cbn [bind].
  eexists. eexists. split; [reflexivity|]. split; [|exact S3]. rewrite forallb_app, O. reflexivity.
Qed.

(** Steps that keep every configuration and every parameter *)
Lemma kept s s' (o : op) e out :
  safe s -> orderly s o -> run ck e s o = Some (s', out) ->
  (forall k g, lookup (cigs s') k = Some g -> lookup (cigs s) k = Some g) ->
  (forall k g, lookup (configs s') k = Some g -> lookup (configs s) k = Some g) ->
  (forall k c, lookup (conns s') k = Some c -> exists d, lookup (conns s) k = Some d /\
     c_params c = c_params d /\ c_role c = c_role d) -> safe s'.
Proof. intros S O R. apply safe_fewer; [exact S|]. eapply run_inv; eauto. apply S. Qed.

Lemma remove_cig_good e g s : safe s -> orderly s (RemoveCig g) -> good (run ck e s (RemoveCig g)).
Proof.
  intros S O. pose proof (kept s) as K. destruct (run ck e s (RemoveCig g)) as [[s' out]|] eqn:R.
  - exists s', out. specialize (K s' _ e out S O R). split; [reflexivity|].
    cbn [run] in R. unfold remove_cig, fail in R.
    open R; injection R as <- <-; (split; [reflexivity|]); auto. apply K.
    + cbn. intros k y. rewrite lookup_erase. destruct (k =? g); [discriminate|auto].
    + cbn [configs with_conns with_configs with_cigs]. intros k y.
      assert (forall m : table config, lookup (filter (fun e => negb (fst e / 256 =? g)) m) k = Some y -> lookup m k = Some y) as X.
      { clear. induction m as [|[a b] m IH]; [auto|]. cbn [filter lookup fst].
        destruct (negb _) eqn:E; cbn [lookup].
        - destruct (a =? k); auto.
        - destruct (N.eqb_spec a k) as [->|]; [|auto]. intros L. exfalso. clear IH.
          induction m as [|[u v] m IH]; [discriminate|]. cbn [filter fst] in L. destruct (negb (u / 256 =? g)) eqn:E2; [|auto].
          cbn [lookup] in L. destruct (N.eqb_spec u k) as [->|]; [congruence|auto]. }
      apply X.
    + cbn. intros k y. rewrite lookup_filter by (apply S). destruct (lookup (conns s) k) as [d|]; [|discriminate].
      destruct (_ || _); [|discriminate]. intros [= <-]. eauto.
  - cbn [run] in R. unfold remove_cig, fail in R.
    destruct (negb _) in R; [discriminate|]. destruct (existsb _ _) in R; discriminate.
Qed.

Lemma run_good e s o s' out :
  safe s -> orderly s o -> run ck e s o = Some (s', out) -> forallb fits out = true ->
  cigs s' = cigs s -> configs s' = configs s ->
  (forall k c, lookup (conns s') k = Some c -> exists d, lookup (conns s) k = Some d /\
     c_params c = c_params d /\ c_role c = c_role d) -> good (run ck e s o).
Proof.
  intros S O R F E1 E2 C. rewrite R. exists s', out. split; [reflexivity|]. split; [exact F|].
  eapply kept; eauto; rewrite ?E1, ?E2; auto.
Qed.

Ltac one_changed L :=
  cbn [conns with_conns]; let k := fresh in let y := fresh in let E := fresh in
  intros k y; rewrite lookup_put; match goal with |- context [k =? ?u] => destruct (N.eqb_spec k u) as [->|E] end;
  [intros [= <-]; eexists; split; [exact L|]; auto | eauto].
Ltac one_gone :=
  cbn [conns with_conns]; let k := fresh in let y := fresh in
  intros k y; rewrite lookup_erase; match goal with |- context [k =? ?u] => destruct (k =? u) end; [discriminate|eauto].

Lemma attached_link s h c : safe s -> lookup (conns s) h = Some c -> c_phase c <> Configuration ->
  exists a p, c_acl c = Some a /\ c_params c = Some p.
Proof.
  intros S L P. destruct (inv_cis _ (safe_inv _ S) _ _ L) as (_ & _ & _ & _ & _ & A & _).
  destruct (A P) as [A1 A2]. destruct (c_acl c), (c_params c); try congruence. eauto.
Qed.

Lemma accept_good e h s : safe s -> orderly s (AcceptCis h) -> good (run ck e s (AcceptCis h)).
Proof.
  intros S O. cbn [run]. unfold accept_cis. destruct (lookup (conns s) h) as [c|] eqn:L; [|now apply good_fail].
  destruct (role_eqb _ _) eqn:R; [now apply good_fail|]. destruct (negb _) eqn:P; [now apply good_fail|].
  assert (P' := P). rewrite negb_false_iff, phase_eqb_eq in P'.
  destruct (attached_link _ _ _ S L) as (a & p & A & _); [rewrite P'; discriminate|].
  pose proof (run_good e s (AcceptCis h)) as G. cbn [run] in G. unfold accept_cis in G. rewrite L, R, P, A in G. rewrite A.
  cbn [bind] in *. eapply G; eauto. one_changed L.
Qed.

Lemma reject_good e h r s : safe s -> orderly s (RejectCis h r) -> good (run ck e s (RejectCis h r)).
Proof.
  intros S O. cbn [run]. unfold reject_cis. destruct (lookup (conns s) h) as [c|] eqn:L; [|now apply good_fail].
  destruct (role_eqb _ _) eqn:R; [now apply good_fail|]. destruct (negb _) eqn:P; [now apply good_fail|].
  assert (P' := P). rewrite negb_false_iff, phase_eqb_eq in P'.
  destruct (attached_link _ _ _ S L) as (a & p & A & _); [rewrite P'; discriminate|].
  pose proof (run_good e s (RejectCis h r)) as G. cbn [run] in G. unfold reject_cis in G. rewrite L, R, P, A in G. rewrite A.
  cbn [bind] in *. eapply G; eauto. one_gone.
Qed.

Lemma setup_good e h o c l s : safe s -> orderly s (SetupPath h o c l) -> good (run ck e s (SetupPath h o c l)).
Proof.
  intros S O. destruct (run ck e s (SetupPath h o c l)) as [[s' out]|] eqn:R.
  - rewrite <- R. assert (R' := R). cbn [run] in R'. unfold setup_path, fail in R'.
    open R'; injection R' as <- <-; eapply run_good; eauto; try (destruct (Bool.eqb _ _)); cbn; eauto; one_changed E0.
  - cbn [run] in R. unfold setup_path, fail in R.
    repeat (cbv zeta in R; match type of R with context [match ?x with _ => _ end] => destruct x end; try discriminate R).
Qed.

Lemma remove_path_good e h i o s : safe s -> orderly s (RemovePath h i o) -> good (run ck e s (RemovePath h i o)).
Proof.
  intros S O. destruct (run ck e s (RemovePath h i o)) as [[s' out]|] eqn:R.
  - rewrite <- R. assert (R' := R). cbn [run] in R'. unfold remove_path, fail in R'.
    destruct (lookup (conns s) h) as [c|] eqn:L.
    + destruct (if role_eqb _ _ then _ else _) as [u v] in R'.
      open R'; injection R' as <- <-; eapply run_good; eauto; one_changed L.
    + open R'; injection R' as <- <-; eapply run_good; eauto.
  - cbn [run] in R. unfold remove_path, fail in R.
    repeat (cbv zeta in R; match type of R with context [match ?x with _ => _ end] => destruct x end; try discriminate R).
Qed.

Lemma disconnect_good e h r s : safe s -> orderly s (Disconnect h r) -> good (run ck e s (Disconnect h r)).
Proof.
  intros S O. cbn [run]. unfold disconnect. destruct (lookup (conns s) h) as [c|] eqn:L; [|now apply good_fail].
  destruct (c_phase c) eqn:P; try (now apply good_fail);
    (destruct (attached_link _ _ _ S L) as (a & p & A & _); [rewrite P; discriminate|]);
    pose proof (run_good e s (Disconnect h r)) as G; cbn [run] in G; unfold disconnect in G; rewrite L, P, A in G; rewrite A;
    cbn [bind] in *; (eapply G; [exact S|exact O|reflexivity|reflexivity|..]);
    destruct (role_eqb _ _); unfold set_phase; rewrite ?L; try reflexivity; try one_gone; one_changed L.
Qed.

Lemma new_bis_value m : lenN m < 255 -> exists h, new_bis_handle m = Some h.
Proof.
  intros H. unfold new_bis_handle. destruct (find _ _) as [h|] eqn:F; [eauto|].
  assert (X : incl (range 0xd00 255) (keys m)).
  { intros x Hx. apply has_spec. eapply find_none in F; [|exact Hx]. now apply negb_false_iff in F. }
  assert (N : forall n a, NoDup (range a n)).
  { clear. induction n as [|n IH]; intros a; cbn; constructor; auto. rewrite range_in. lia. }
  assert (LEN : forall n a, length (range a n) = n). { clear. induction n; intros a; cbn; auto. }
  assert (length (range 0xd00 255) <= length (keys m))%nat as K by (apply NoDup_incl_length; auto).
  rewrite LEN in K. unfold keys in K. rewrite map_length in K. unfold lenN in H. lia.
Qed.

Lemma new_bises_value b ids : forall m, lenN m + lenN ids <= 255 -> exists m' hs, new_bises b ids m = Some (m', hs).
Proof.
  induction ids as [|i ids IH]; intros m H; cbn [new_bises]; [eauto|]. rewrite lenN_cons in H.
  destruct (new_bis_value m) as (h & ->); [lia|]. cbn [bind].
  destruct (IH (put m h (Bis b i CENTRAL false))) as (m' & hs & ->); [|cbn [bind]; eauto].
  pose proof (put_length m h (Bis b i CENTRAL false)). lia.
Qed.

Lemma range_length n : forall a, lenN (range a n) = N.of_nat n.
Proof. unfold lenN. induction n as [|n IH]; intros a; cbn [range length]; [reflexivity|]. rewrite Nat2N.inj_succ, IH. lia. Qed.

Lemma create_big_good e b adv num iv sdu lat rtn phy s :
  safe s -> lenN (biss s) + num <= 255 -> good (create_big e b adv num iv sdu lat rtn phy s).
Proof.
  intros S H. unfold create_big.
  repeat match goal with
  | |- good (fail _ _ _) => now apply good_fail
  | |- good (if ?x then _ else _) => destruct x
  | |- good (match ?x with _ => _ end) => destruct x
  end.
  destruct (new_bises_value b (range 1 (N.to_nat num)) (biss s)) as (m & hs & ->).
  { rewrite range_length, N2Nat.id. exact H. }
  cbn [bind]. eexists. eexists. split; [reflexivity|]. split; [reflexivity|]. now apply (safe_same s).
Qed.

Lemma terminate_big_good b r s : safe s -> good (terminate_big b r s).
Proof.
  intros S. unfold terminate_big. destruct (_ <? _); [now apply good_fail|]. destruct (negb _); [now apply good_fail|].
  eexists. eexists. split; [reflexivity|]. split; [reflexivity|]. now apply (safe_same s).
Qed.

Lemma forallb_flat_map {A} (f : A -> list output) l :
  (forall x, In x l -> forallb fits (f x) = true) -> forallb fits (flat_map f l) = true.
Proof.
  induction l as [|a l IH]; cbn; [auto|]. intros H. rewrite forallb_app, H by now left. cbn. apply IH. auto.
Qed.

Lemma no_report_fits st h : fits (Event (Established st h no_report)) = true.
Proof. reflexivity. Qed.

Lemma remove_link_good e a r s : safe s -> orderly s (RemoveLink a r) -> has (acls s) a = true ->
  good (run ck e s (RemoveLink a r)).
Proof.
  intros S O H. cbn [run]. unfold remove_link. rewrite H.
  pose proof (remove_acl_inv a (if declared_error r then r else REMOTE_USER_TERMINATED) s (safe_inv _ S)) as I.
  unfold remove_acl in *. cbn [fst] in I. eexists. eexists. split; [reflexivity|]. split.
  - rewrite forallb_app, !forallb_flat_map; [reflexivity| |].
    + intros q _. destruct (_ =? _); reflexivity.
    + intros c _. unfold lost. destruct (optN_eqb _ _); [|reflexivity]. destruct (c_phase c); reflexivity.
  - eapply safe_fewer; [exact S|exact I|auto|auto|].
    cbn [conns with_conns with_queue]. intros k c. rewrite filter_conns_map, lookup_filter by apply S.
    destruct (lookup (conns s) k) as [d|]; [|discriminate]. destruct (_ || _); [|discriminate].
    intros [= <-]. exists d. split; [reflexivity|]. unfold unlink. destruct (optN_eqb _ _); auto.
Qed.

Lemma cis_req_good acl g c p s :
  safe s -> byte g -> byte c -> lenN (conns s) < 254 -> params_ok p -> good (cis_req acl g c p s).
Proof.
  intros S B1 B2 R P. unfold cis_req. destruct (new_handle_value s R) as (h & H). rewrite H. cbn [bind].
  eexists. eexists. split; [reflexivity|]. split; [reflexivity|].
  apply safe_stream; [exact S| |].
  - eapply (cis_req_inv acl g c p s); [apply S|exact B1|exact B2|]. unfold cis_req. rewrite H. reflexivity.
  - intros q. cbn. intros [= <-]. split; [exact P|discriminate].
Qed.

Lemma cis_rsp_good pick acl s : safe s -> good (cis_rsp ck pick acl s).
Proof.
  intros S. unfold cis_rsp. destruct (find_cis _ _ _) as [h|] eqn:F; [|now exists s, []].
  apply find_cis_spec in F as (c & L & W); [|apply S]. apply waiting_spec in W as (W1 & W2 & W3).
  destruct (attached_link _ _ _ S L) as (a & p & _ & P); [rewrite W3; discriminate|].
  rewrite L. cbn [bind]. rewrite P. cbn [bind].
  destruct (safe_streams _ S _ _ L p P) as [P1 P2]. destruct (P2 W2) as [P3 P4].
  destruct (report_value CENTRAL p P1 P3 P4) as (r & -> & R). cbn [bind].
  assert (S1 : safe (set_phase Connected h s)).
  { eapply safe_fewer; [exact S|eapply set_phase_connected_inv; eauto; apply S| | |];
      unfold set_phase; rewrite L; auto. one_changed L. }
  destruct (deque_value _ S1) as (s' & o & -> & O & S2). cbn [bind].
  eexists. eexists. split; [reflexivity|]. split; [|exact S2]. cbn [forallb]. rewrite O.
  assert (fits (Event (Established SUCCESS h r)) = true) as -> by exact R.
  assert (fits (Send acl (CisInd (cig_delay p) (cis_delay p))) = true) as ->; [|reflexivity].
  cbn. destruct P1 as (_ & _ & _ & _ & [L1 _] & _). rewrite P3, P4. rewrite andb_true_iff, N.ltb_lt.
  assert (1250 * p_iso p < 2 ^ 24); [|auto].
  replace (1250 * p_iso p * (1 + p_ft_cp p)) with (1250 * p_iso p + 1250 * p_iso p * p_ft_cp p) in L1 by lia. lia.
Qed.

Lemma reject_ext_good pick acl s : safe s -> good (reject_ext pick acl CIS_REQ_OPCODE s).
Proof.
  intros S. unfold reject_ext. rewrite N.eqb_refl. cbn [negb].
  destruct (find_cis _ _ _) as [h|] eqn:F; [|now exists s, []].
  apply find_cis_spec in F as (c & L & W); [|apply S]. apply waiting_spec in W as (W1 & W2 & W3).
  rewrite L. cbn [bind].
  assert (S1 : safe (with_conns (put (conns s) h (with_c_params None (with_c_phase Configuration c))) s)).
  { apply safe_stream; [exact S|apply reset_inv; auto; apply S|]. intros p. cbn. discriminate. }
  destruct (deque_value _ S1) as (s' & o & -> & O & S2). cbn [bind].
  eexists. eexists. split; [reflexivity|]. split; [|exact S2]. cbn [forallb]. rewrite O. reflexivity.
Qed.

Lemma cis_ind_good pick acl a b s :
  safe s ->
  (forall x c p, lookup (conns s) x = Some c -> c_phase c = PendingInd -> c_acl c = Some acl ->
     c_params c = Some p -> a = 1250 * p_iso p /\ b = 1250 * p_iso p) ->
  good (cis_ind ck pick acl a b s).
Proof.
  intros S D. pose proof (cis_ind_inv ck pick acl a b s) as I. unfold cis_ind in *.
  destruct (find_cis _ _ _) as [h|] eqn:F; [|now exists s, []].
  apply find_cis_spec in F as (c & L & W); [|apply S]. apply waiting_spec in W as (W1 & W2 & W3).
  destruct (attached_link _ _ _ S L) as (x & p & _ & P); [rewrite W3; discriminate|].
  rewrite L in *. cbn [bind] in *. rewrite P in *. cbn [bind] in *. cbv zeta in *.
  destruct (D _ _ _ L W3 W1 P) as [D1 D2]. destruct (safe_streams _ S _ _ L p P) as [P1 _].
  destruct (report_value PERIPHERAL (with_cig_delay a (with_cis_delay b p)) P1 D1 D2) as (r & E & R). rewrite E in *. cbn [bind] in *.
  eexists. eexists. split; [reflexivity|]. split; [cbn [forallb]; rewrite andb_true_r; exact R|].
  apply safe_stream; [exact S|eapply I; [apply S|reflexivity]|].
  intros q. cbn. intros [= <-]. split; [exact P1|]. rewrite W2. discriminate.
Qed.

Lemma sane_good e s o : safe s -> sane s o -> good (run ck e s o).
Proof.
  intros S H. assert (O : orderly s o) by apply H. destruct o.
  - apply set_cig_good; auto.
  - apply set_cig_test_good; auto.
  - apply remove_cig_good; auto.
  - apply create_good; auto.
  - apply accept_good; auto.
  - apply reject_good; auto.
  - apply setup_good; auto.
  - apply remove_path_good; auto.
  - apply disconnect_good; auto.
  - apply create_big_good; auto. apply H.
  - apply terminate_big_good; auto.
  - destruct H as [_ H]. cbn [run]. unfold add_link. rewrite H. eexists. eexists. split; [reflexivity|].
    split; [reflexivity|]. now apply (safe_same s).
  - apply remove_link_good; auto. apply H.
  - destruct H as [_ H]. cbn [run]. destruct p.
    + destruct H. destruct O as [O _]. cbn in O. apply cis_req_good; auto; apply O.
    + now apply cis_rsp_good.
    + now apply cis_ind_good.
    + pose proof (kept s) as K. specialize (fun s' out => K s' (Receive pick acl (CisTerminate g c error)) e out S O).
      cbn [run] in K. unfold cis_terminate in *. destruct (find_cis _ _ _) as [x|] eqn:F; [|now exists s, []].
      rewrite H in *. eexists. eexists. split; [reflexivity|]. split; [reflexivity|].
      eapply K; [reflexivity|auto|auto|]. one_gone.
    + rewrite H. now apply reject_ext_good.
    + destruct H.
Qed.

Lemma sane_step e s o : safe s -> sane s o -> exists s' out, step ck e s o = Ok s' out /\ safe s'.
Proof.
  intros S H. destruct (sane_good e s o S H) as (s' & out & E & F & S'). exists s', out.
  unfold step. rewrite E, F. auto.
Qed.

Lemma sane_history h s : history ck sane h s -> safe s.
Proof.
  induction 1 as [|h s e o s' out H IH P E]; [apply safe_initial|].
  destruct (sane_step e s o IH P) as (t & u & E' & S). rewrite E in E'. now injection E' as <- <-.
Qed.

Lemma sane_never_panics h s e o : history ck sane h s -> sane s o -> step ck e s o <> Panic.
Proof.
  intros H P. destruct (sane_step e s o (sane_history _ _ H) P) as (t & u & E & _). rewrite E. discriminate.
Qed.
End Safe.
