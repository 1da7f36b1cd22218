(** Proofs about channel sounding: the configuration procedure on a quiet link. *)
From Verif Require Import Prelude Table Cs CsSpec CsProofs CsMore CsSafety.
Open Scope N_scope.

Lemma create_outcome tm e id b e' st ps ev : do_command tm e (CreateConfig id 1 b 0) = (e', st, ps, ev) -> st = SUCCESS ->
  configs e' = put (configs e) id (Config b false None) /\ ps = [ConfigReq id 1 b] /\ ev = [].
Proof. intros H S. unfold do_command in H. crack H; apply tuple4 in H as (-> & -> & -> & ->); try discriminate S; [auto|discriminate]. Qed.
Lemma request_outcome m e id b e' ps ev : host_support e = true -> do_receive m e (ConfigReq id 1 b) = Some (e', ps, ev) ->
  if request_ok (local e) b
  then configs e' = put (configs e) id (Config (mirrored b) false None) /\ ps = [ConfigRsp SUCCESS id] /\ ev = [ConfigComplete SUCCESS id 1 (mirrored b)]
  else e' = e /\ ps = [ConfigRsp UNSUPPORTED_LMP_OR_LL_PARAMETER id] /\ ev = [].
Proof. intros S H. cbn [do_receive] in H. rewrite S in H. cbn [negb] in H. destruct (request_ok (local e) b); cbn in H; apply some3 in H as (-> & -> & ->); auto. Qed.
Lemma response_outcome m e st id k e' ps ev : lookup (configs e) id = Some k -> do_receive m e (ConfigRsp st id) = Some (e', ps, ev) ->
  configs e' = (if nonzero st then erase (configs e) id else configs e) /\ ps = [] /\ ev = [ConfigComplete st id 1 (the_body k)].
Proof. intros L H. cbn [do_receive] in H. rewrite L in H. apply some3 in H as (-> & -> & ->). destruct (nonzero st); auto. Qed.

(** [b'] is the configuration [b] seen from the other end: everything but the role is the same,
    and the roles are the two different ones (0 initiator, 1 reflector). *)
Definition opposite (b b' : body) : Prop :=
  (role b = 0 -> role b' = 1) /\ (role b = 1 -> role b' = 0) /\
  channel_map b' = channel_map b /\ map_repetition b' = map_repetition b /\ main_mode b' = main_mode b /\ sub_mode b' = sub_mode b /\
  min_steps b' = min_steps b /\ max_steps b' = max_steps b /\ repetition b' = repetition b /\ mode_0_steps b' = mode_0_steps b /\
  sync_phy b' = sync_phy b /\ rtt_type b' = rtt_type b /\ selection b' = selection b /\ shape b' = shape b /\ jump b' = jump b.
Lemma mirrored_opposite b : opposite b (mirrored b).
Proof. unfold opposite, mirrored. cbn [role]. repeat split; intros ->; reflexivity. Qed.

(** The end of the configuration procedure that the host at [x] started *)
Definition created_at_both (x : side) (id : N) (b : body) (ev2 ev3 : list event) (s3 : system) : Prop :=
  lookup (configs (end_of x s3)) id = Some (Config b false None) /\
  exists b', opposite b b' /\ lookup (configs (end_of (other x) s3)) id = Some (Config b' false None) /\
  ev2 = [ConfigComplete SUCCESS id 1 b'] /\ ev3 = [ConfigComplete SUCCESS id 1 b].
Definition rejected_at_both (x : side) (id : N) (b : body) (ev2 ev3 : list event) (s s3 : system) : Prop :=
  lookup (configs (end_of x s3)) id = None /\
  configs (end_of (other x) s3) = configs (end_of (other x) s) /\
  ev2 = [] /\ ev3 = [ConfigComplete UNSUPPORTED_LMP_OR_LL_PARAMETER id 1 b].

Lemma create_agreement x s tm id b s1 ps1 ev1 m2 s2 st2 ps2 ev2 m3 s3 st3 ps3 ev3 :
  quiet s -> host_support (end_of (other x) s) = true ->
  step s (Host x tm (CreateConfig id 1 b 0)) = Some (s1, SUCCESS, ps1, ev1) ->
  step s1 (Deliver (other x) m2) = Some (s2, st2, ps2, ev2) -> step s2 (Deliver x m3) = Some (s3, st3, ps3, ev3) ->
  quiet s3 /\ ev1 = [] /\
  (forall i, i <> id -> lookup (configs (end_of x s3)) i = lookup (configs (end_of x s)) i /\ lookup (configs (end_of (other x) s3)) i = lookup (configs (end_of (other x) s)) i) /\
  if request_ok (local (end_of (other x) s)) b then created_at_both x id b ev2 ev3 s3 else rejected_at_both x id b ev2 ev3 s s3.
Proof.
  intros [Q1 Q2] HS S1 S2 S3. unfold created_at_both, rejected_at_both, quiet. destruct s as [ce pe tp tc]. cbn [to_per to_cen] in Q1, Q2. subst tp tc.
  destruct x; cbn [other end_of] in *; unfold step in S1; cbn [cen per to_per to_cen app] in S1, HS.
  - destruct (do_command tm ce (CreateConfig id 1 b 0)) as [[[e1 u1] q1] v1] eqn:D1. injection S1 as <- -> <- <-.
    destruct (create_outcome _ _ _ _ _ _ _ _ D1 eq_refl) as (C1 & -> & ->). unfold step in S2. cbn [to_per per] in S2.
    destruct (do_receive m2 pe (ConfigReq id 1 b)) as [[[e2 q2] v2]|] eqn:D2; [|discriminate]. injection S2 as <- <- <- <-.
    assert (R := request_outcome _ _ _ _ _ _ _ HS D2). cbn [per]. cbn [end_of cen per].
    assert (L : lookup (configs e1) id = Some (Config b false None)) by (rewrite C1, lookup_put, N.eqb_refl; reflexivity).
    unfold step in S3. cbn [to_cen cen per to_per app] in S3.
    destruct (request_ok (local pe) b); destruct R as (C2 & -> & ->); cbn [app] in S3.
    + destruct (do_receive m3 e1 (ConfigRsp SUCCESS id)) as [[[e3 q3] v3]|] eqn:D3; [|discriminate]. injection S3 as <- <- <- <-.
      destruct (response_outcome _ _ _ _ _ _ _ _ L D3) as (C3 & -> & ->). change (nonzero SUCCESS) with false in C3. change (nonzero UNSUPPORTED_LMP_OR_LL_PARAMETER) with true in C3. cbv match in C3.  cbn [end_of cen per to_per to_cen]. rewrite C3. cbn [the_body]. rewrite L, C2, C1, lookup_put, N.eqb_refl.
      repeat split; auto; try (rewrite lookup_put; destruct (N.eqb_spec i id); congruence). exists (mirrored b). split; [apply mirrored_opposite|auto].
    + destruct (do_receive m3 e1 (ConfigRsp UNSUPPORTED_LMP_OR_LL_PARAMETER id)) as [[[e3 q3] v3]|] eqn:D3; [|discriminate]. injection S3 as <- <- <- <-. subst e2.
      destruct (response_outcome _ _ _ _ _ _ _ _ L D3) as (C3 & -> & ->). change (nonzero SUCCESS) with false in C3. change (nonzero UNSUPPORTED_LMP_OR_LL_PARAMETER) with true in C3. cbv match in C3.  cbn [end_of cen per to_per to_cen the_body]. rewrite C3, C1, lookup_erase, N.eqb_refl.
      repeat split; auto. rewrite lookup_erase, lookup_put; destruct (N.eqb_spec i id); congruence.
  - destruct (do_command tm pe (CreateConfig id 1 b 0)) as [[[e1 u1] q1] v1] eqn:D1. injection S1 as <- -> <- <-.
    destruct (create_outcome _ _ _ _ _ _ _ _ D1 eq_refl) as (C1 & -> & ->). unfold step in S2. cbn [to_cen cen] in S2.
    destruct (do_receive m2 ce (ConfigReq id 1 b)) as [[[e2 q2] v2]|] eqn:D2; [|discriminate]. injection S2 as <- <- <- <-.
    assert (R := request_outcome _ _ _ _ _ _ _ HS D2). cbn [end_of cen per].
    assert (L : lookup (configs e1) id = Some (Config b false None)) by (rewrite C1, lookup_put, N.eqb_refl; reflexivity).
    unfold step in S3. cbn [to_cen cen per to_per app] in S3.
    destruct (request_ok (local ce) b); destruct R as (C2 & -> & ->); cbn [app] in S3.
    + destruct (do_receive m3 e1 (ConfigRsp SUCCESS id)) as [[[e3 q3] v3]|] eqn:D3; [|discriminate]. injection S3 as <- <- <- <-.
      destruct (response_outcome _ _ _ _ _ _ _ _ L D3) as (C3 & -> & ->). change (nonzero SUCCESS) with false in C3. change (nonzero UNSUPPORTED_LMP_OR_LL_PARAMETER) with true in C3. cbv match in C3.  cbn [end_of cen per to_per to_cen]. rewrite C3. cbn [the_body]. rewrite L, C2, C1, lookup_put, N.eqb_refl.
      repeat split; auto; try (rewrite lookup_put; destruct (N.eqb_spec i id); congruence). exists (mirrored b). split; [apply mirrored_opposite|auto].
    + destruct (do_receive m3 e1 (ConfigRsp UNSUPPORTED_LMP_OR_LL_PARAMETER id)) as [[[e3 q3] v3]|] eqn:D3; [|discriminate]. injection S3 as <- <- <- <-. subst e2.
      destruct (response_outcome _ _ _ _ _ _ _ _ L D3) as (C3 & -> & ->). change (nonzero SUCCESS) with false in C3. change (nonzero UNSUPPORTED_LMP_OR_LL_PARAMETER) with true in C3. cbv match in C3.  cbn [end_of cen per to_per to_cen the_body]. rewrite C3, C1, lookup_erase, N.eqb_refl.
      repeat split; auto. rewrite lookup_erase, lookup_put; destruct (N.eqb_spec i id); congruence.
Qed.

(** A valid configuration in main mode 1 is accepted by a controller that supports it in both roles *)
Lemma request_accepted c id b : role b <= 1 -> valid_body b -> supports c 0 id b -> supports c 1 id b -> main_mode b = 1 -> N.testbit (modes c) 0 = true -> request_ok c b = true.
Proof.
  intros R V S0 S1 M T. unfold request_ok. rewrite land_1, T, M.
  assert (A : nonzero (N.land (roles c) (if role b =? 1 then 2 else 1)) = true).
  { destruct (role b =? 1); [rewrite land_2; exact (su_role _ _ _ _ S1)|rewrite land_1; exact (su_role _ _ _ _ S0)]. }
  assert (B : sub_mode b = 255). { assert (I := vb_modes _ V). rewrite M in I. cbn in I. repeat (destruct I as [I|I]; [now injection I|]). destruct I. }
  rewrite A, B. rewrite (proj2 (rtt_exact c (rtt_type b)) (su_rtt _ _ _ _ S0)), (proj2 (phy_exact c (sync_phy b)) (su_phy _ _ _ _ S0)), (vb_selection _ V).
  assert (J : shape b = 0 \/ shape b = 1) by (assert (Z := vb_shape _ V); lia).
  destruct (vb_jump _ V) as [K1 K2]. apply N.leb_le in K1, K2. rewrite K1, K2. destruct J as [-> | ->]; reflexivity.
Qed.
(** No configuration in main mode 2 or 3 is accepted *)
Lemma modes_rejected c b : main_mode b <> 1 -> request_ok c b = false.
Proof. intros M. apply N.eqb_neq in M. unfold request_ok. rewrite M, andb_false_r. reflexivity. Qed.

(** The removal of a configuration: the other controller keeps it *)
Lemma remove_kept x s tm id s1 ps1 ev1 m2 s2 st2 ps2 ev2 m3 s3 st3 ps3 ev3 :
  quiet s -> host_support (end_of (other x) s) = true ->
  step s (Host x tm (RemoveConfig id)) = Some (s1, SUCCESS, ps1, ev1) ->
  step s1 (Deliver (other x) m2) = Some (s2, st2, ps2, ev2) -> step s2 (Deliver x m3) = Some (s3, st3, ps3, ev3) ->
  quiet s3 /\ lookup (configs (end_of x s3)) id = None /\ configs (end_of (other x) s3) = configs (end_of (other x) s) /\
  ev1 = [] /\ ev2 = [] /\ ev3 = [ConfigComplete UNSUPPORTED_LMP_OR_LL_PARAMETER id 0 removal].
Proof.
  intros [Q1 Q2] HS S1 S2 S3. unfold quiet. destruct s as [ce pe tp tc]. cbn [to_per to_cen] in Q1, Q2. subst tp tc.
  assert (K : forall e, request_ok (local e) removal = false) by (intros e; unfold request_ok, removal; cbn [selection]; rewrite andb_false_r; reflexivity).
  destruct x; cbn [other end_of] in *; unfold step in S1; cbn [cen per to_per to_cen app do_command] in S1, HS.
  - destruct (lookup (configs ce) id) as [k|] eqn:L; [|discriminate]. injection S1 as <- <- <-.
    unfold step in S2. cbn [to_per per do_receive] in S2. rewrite HS, K in S2. cbn [negb app] in S2. injection S2 as <- <- <- <-.
    unfold step in S3. cbn [to_cen cen per to_per app do_receive with_configs configs] in S3. rewrite lookup_erase, N.eqb_refl in S3. cbv match in S3. injection S3 as <- <- <- <-.
    cbn [end_of cen per to_per to_cen configs with_configs]. rewrite lookup_erase, N.eqb_refl. auto 10.
  - destruct (lookup (configs pe) id) as [k|] eqn:L; [|discriminate]. injection S1 as <- <- <-.
    unfold step in S2. cbn [to_cen cen do_receive] in S2. rewrite HS, K in S2. cbn [negb app] in S2. injection S2 as <- <- <- <-.
    unfold step in S3. cbn [to_cen cen per to_per app do_receive with_configs configs] in S3. rewrite lookup_erase, N.eqb_refl in S3. cbv match in S3. injection S3 as <- <- <- <-.
    cbn [end_of cen per to_per to_cen configs with_configs]. rewrite lookup_erase, N.eqb_refl. auto 10.
Qed.

(** A procedure is reported as enabled only for a configuration whose parameters are set *)
Lemma event_ready m e id ev i : procedure_event m e id = Some ev -> In (ProcedureComplete SUCCESS i true) ev -> standing_in (configs e) i = Ready \/ standing_in (configs e) i = Running.
Proof.
  intros H I. unfold procedure_event in H. crack H; injection H as <-; try contradiction. destruct I as [[= <-]|[]].
  unfold standing_in. match goal with L : lookup _ _ = Some _, P : params _ = Some _ |- _ => rewrite L, P end. destruct (enabled _); auto.
Qed.
Lemma reported_ready c p h s x id o s' st ps ev : history (connected c p) h s -> step s o = Some (s', st, ps, ev) ->
  start_reported x id (Entry o (delivered s o) st ps ev) -> standing_of x id h = Ready \/ standing_of x id h = Running.
Proof.
  intros H S (m & W & I). cbn [what events] in W, I. subst o. rewrite (history_standing _ _ _ _ x id H).
  assert (R : forall e q e' ps' ev', do_receive m e q = Some (e', ps', ev') -> In (ProcedureComplete SUCCESS id true) ev' -> standing_in (configs e) id = Ready \/ standing_in (configs e) id = Running).
  { intros e q e' ps' ev' D J. destruct q; receive_cases D; cbn [In] in J.
    all: try match goal with E : procedure_event _ _ _ = Some _ |- _ => exact (event_ready _ _ _ _ _ E J) end; intuition discriminate. }
  unfold step in S. destruct x; cbn [end_of].
  - destruct (to_cen s) as [|q rest]; [injection S as <- <- <- <-; destruct I|]. destruct (do_receive m (cen s) q) as [[[e' ps'] ev']|] eqn:D; [|discriminate]. injection S as <- <- <- <-. exact (R _ _ _ _ _ D I).
  - destruct (to_per s) as [|q rest]; [injection S as <- <- <- <-; destruct I|]. destruct (do_receive m (per s) q) as [[[e' ps'] ev']|] eqn:D; [|discriminate]. injection S as <- <- <- <-. exact (R _ _ _ _ _ D I).
Qed.
(** A running procedure stays so until its configuration is removed or made anew *)
Lemma running_stuck c p h s x id tm on s' st ps ev : history (connected c p) h s -> standing_of x id h = Running ->
  step s (Host x tm (ProcedureEnable id on)) = Some (s', st, ps, ev) -> st = COMMAND_DISALLOWED /\ ps = [] /\ ev = [] /\ s' = s.
Proof. intros H R S. destruct (enable_exact _ _ _ _ _ _ _ _ _ _ _ _ H S) as (-> & K). rewrite R in K. tauto. Qed.
Lemma running_kept x id e h : standing_of x id h = Running -> standing_of x id (e :: h) <> Running ->
  (exists tm ctx b r, what e = Host x tm (CreateConfig id ctx b r)) \/ (exists tm, what e = Host x tm (RemoveConfig id)) \/ (exists tm q, what e = Host x tm (SetProcedure id q)) \/
  (exists m q, what e = Deliver x m /\ got e = Some q /\ ((exists i a b, q = ConfigReq i a b) \/ exists st, q = ConfigRsp st id)).
Proof.
  intros R N. cbn [standing_of] in N. rewrite R in N. unfold after_entry in N.
  assert (SE : forall y, negb (side_eqb x y) = false -> y = x) by (intros y Q; destruct x, y; try reflexivity; discriminate Q).
  destruct (what e) as [y tm k|y m|] eqn:W; [| |now destruct N].
  - destruct (negb (side_eqb x y)) eqn:Q; cbn [orb] in N; [now destruct N|]. apply SE in Q. subst y. destruct (negb (status_of e =? SUCCESS)); [now destruct N|].
    destruct k; try (now destruct N); try (destruct (_ =? id) eqn:I; [apply N.eqb_eq in I; subst|now destruct N]); eauto 10.
    destruct on; [|now destruct N]. destruct (id0 =? id); now destruct N.
  - destruct (negb (side_eqb x y)) eqn:Q; cbn [orb] in N; [now destruct N|]. apply SE in Q. subst y. right. right. right.
    destruct (got e) as [q|]; [|now destruct N]. destruct q; try (now destruct N).
    + exists m, (ConfigReq id0 action b). eauto 10.
    + destruct (id0 =? id) eqn:I; [|now destruct N]. apply N.eqb_eq in I. subst. exists m, (ConfigRsp status id). eauto 10.
Qed.

(** The same, in reachable states *)
Lemma configurations_valid c p h s x id k : history (connected c p) h s -> lookup (configs (end_of x s)) id = Some k -> valid_body (the_body k).
Proof. intros H L. destruct (history_valid _ _ _ _ H) as [(A & _) _]. exact (A x id k L). Qed.
Lemma sent_maps_valid c p h s e m : history (connected c p) h s -> In e h -> In (MapInd m) (sent e) -> valid_map m.
Proof.
  intros H I J. destruct (history_valid _ _ _ _ H) as [_ F]. rewrite Forall_forall in F. specialize (F e I). rewrite Forall_forall in F. exact (F _ J).
Qed.
Lemma history_exact c p h s x tm id b s1 ps1 ev1 m2 s2 st2 ps2 ev2 m3 s3 st3 ps3 ev3 :
  history (connected c p) h s -> quiet s -> s_support (settings_of (other x) c p) = true ->
  step s (Host x tm (CreateConfig id 1 b 0)) = Some (s1, SUCCESS, ps1, ev1) ->
  step s1 (Deliver (other x) m2) = Some (s2, st2, ps2, ev2) -> step s2 (Deliver x m3) = Some (s3, st3, ps3, ev3) ->
  quiet s3 /\ ev1 = [] /\
  (forall i, i <> id -> lookup (configs (end_of x s3)) i = lookup (configs (end_of x s)) i /\ lookup (configs (end_of (other x) s3)) i = lookup (configs (end_of (other x) s)) i) /\
  if request_ok (s_caps (settings_of (other x) c p)) b then created_at_both x id b ev2 ev3 s3 else rejected_at_both x id b ev2 ev3 s s3.
Proof.
  intros H Q S S1 S2 S3. destruct (history_constant _ _ _ _ (other x) H) as (_ & A & B). rewrite <- A in S. rewrite <- B. exact (create_agreement _ _ _ _ _ _ _ _ _ _ _ _ _ _ _ _ _ _ Q S S1 S2 S3).
Qed.
Lemma history_agreement c p h s x tm id b s1 ps1 ev1 m2 s2 st2 ps2 ev2 m3 s3 st3 ps3 ev3 :
  history (connected c p) h s -> quiet s -> s_support (settings_of (other x) c p) = true ->
  step s (Host x tm (CreateConfig id 1 b 0)) = Some (s1, SUCCESS, ps1, ev1) ->
  step s1 (Deliver (other x) m2) = Some (s2, st2, ps2, ev2) -> step s2 (Deliver x m3) = Some (s3, st3, ps3, ev3) ->
  quiet s3 /\ ev1 = [] /\
  (forall i, i <> id -> lookup (configs (end_of x s3)) i = lookup (configs (end_of x s)) i /\ lookup (configs (end_of (other x) s3)) i = lookup (configs (end_of (other x) s)) i) /\
  (created_at_both x id b ev2 ev3 s3 \/ rejected_at_both x id b ev2 ev3 s s3).
Proof.
  intros H Q S S1 S2 S3. destruct (history_exact _ _ _ _ _ _ _ _ _ _ _ _ _ _ _ _ _ _ _ _ _ H Q S S1 S2 S3) as (A & B & C & D). destruct (request_ok _ b); auto.
Qed.
Lemma history_accepted c p h s x tm id b s1 ps1 ev1 m2 s2 st2 ps2 ev2 m3 s3 st3 ps3 ev3 :
  let theirs := s_caps (settings_of (other x) c p) in
  history (connected c p) h s -> quiet s -> s_support (settings_of (other x) c p) = true -> role b <= 1 ->
  supports theirs 0 id b -> supports theirs 1 id b -> N.testbit (modes theirs) 0 = true -> main_mode b = 1 ->
  step s (Host x tm (CreateConfig id 1 b 0)) = Some (s1, SUCCESS, ps1, ev1) ->
  step s1 (Deliver (other x) m2) = Some (s2, st2, ps2, ev2) -> step s2 (Deliver x m3) = Some (s3, st3, ps3, ev3) ->
  created_at_both x id b ev2 ev3 s3.
Proof.
  intros theirs H Q S R U0 U1 M M1 S1 S2 S3. destruct (history_exact _ _ _ _ _ _ _ _ _ _ _ _ _ _ _ _ _ _ _ _ _ H Q S S1 S2 S3) as (A & B & C & D).
  assert (V : valid_body b) by (apply (history_create _ _ _ _ _ _ _ _ _ _ _ _ _ _ H R) in S1 as [E _]; destruct (E eq_refl) as (r & _ & _ & _ & _ & _ & V & _); exact V).
  fold theirs in D. rewrite (request_accepted theirs id b R V U0 U1 M1 M) in D. exact D.
Qed.
Lemma history_refused c p h s x tm id b s1 ps1 ev1 m2 s2 st2 ps2 ev2 m3 s3 st3 ps3 ev3 :
  history (connected c p) h s -> quiet s -> s_support (settings_of (other x) c p) = true -> main_mode b <> 1 ->
  step s (Host x tm (CreateConfig id 1 b 0)) = Some (s1, SUCCESS, ps1, ev1) ->
  step s1 (Deliver (other x) m2) = Some (s2, st2, ps2, ev2) -> step s2 (Deliver x m3) = Some (s3, st3, ps3, ev3) ->
  rejected_at_both x id b ev2 ev3 s s3.
Proof.
  intros H Q S M S1 S2 S3. destruct (history_exact _ _ _ _ _ _ _ _ _ _ _ _ _ _ _ _ _ _ _ _ _ H Q S S1 S2 S3) as (A & B & C & D). now rewrite modes_rejected in D.
Qed.
Lemma history_removal c p h s x tm id s1 ps1 ev1 m2 s2 st2 ps2 ev2 m3 s3 st3 ps3 ev3 :
  history (connected c p) h s -> quiet s -> s_support (settings_of (other x) c p) = true ->
  step s (Host x tm (RemoveConfig id)) = Some (s1, SUCCESS, ps1, ev1) ->
  step s1 (Deliver (other x) m2) = Some (s2, st2, ps2, ev2) -> step s2 (Deliver x m3) = Some (s3, st3, ps3, ev3) ->
  quiet s3 /\ lookup (configs (end_of x s3)) id = None /\ configs (end_of (other x) s3) = configs (end_of (other x) s) /\
  ev1 = [] /\ ev2 = [] /\ ev3 = [ConfigComplete UNSUPPORTED_LMP_OR_LL_PARAMETER id 0 removal].
Proof.
  intros H Q S S1 S2 S3. destruct (history_constant _ _ _ _ (other x) H) as (_ & A & _). rewrite <- A in S. exact (remove_kept _ _ _ _ _ _ _ _ _ _ _ _ _ _ _ _ _ Q S S1 S2 S3).
Qed.
