(** Properties of channel sounding on an LE connection: C39, C50, C51, C52, C53. *)
From Verif Require Import Prelude Table Cs CsSpec CsProofs CsMore CsSafety CsAgree CsWitness.
Open Scope N_scope.

Theorem C39_enable_exact_partial : forall c p h s x tm id on s' st ps ev, history (connected c p) h s -> step s (Host x tm (ProcedureEnable id on)) = Some (s', st, ps, ev) ->
  ev = [] /\
  match standing_of x id h with
  | Absent => st = INVALID_HCI_COMMAND_PARAMETERS /\ ps = [] /\ s' = s
  | Created | Running => st = COMMAND_DISALLOWED /\ ps = [] /\ s' = s
  | Ready => st = SUCCESS /\ (if on then exists len, ps = [CsReq id len] else ps = [TermReq id SUCCESS])
  end.
Proof. exact enable_exact. Qed.
Print Assumptions C39_enable_exact_partial.

Theorem C39_reported_ready : forall c p h s x id o s' st ps ev, history (connected c p) h s -> step s o = Some (s', st, ps, ev) ->
  start_reported x id (Entry o (delivered s o) st ps ev) -> standing_of x id h = Ready \/ standing_of x id h = Running.
Proof. exact reported_ready. Qed.
Print Assumptions C39_reported_ready.

Theorem C39_ready_witness : exists h s, history start h s /\ standing_of Central 0 h = Ready /\ standing_of Peripheral 0 h = Created.
Proof. exact is_ready. Qed.
Print Assumptions C39_ready_witness.

Theorem C39_reported_witness : exists h s, history start h s /\ Exists (start_reported Central 0) h /\ Exists (start_reported Peripheral 0) h /\ Exists (start_accepted Peripheral 0) h /\
  Exists (security_reported Central) h /\ Exists (security_reported Peripheral) h.
Proof. exact reported. Qed.
Print Assumptions C39_reported_witness.

Theorem C39_never_disabled : forall c p h s x id tm on s' st ps ev, history (connected c p) h s -> standing_of x id h = Running ->
  step s (Host x tm (ProcedureEnable id on)) = Some (s', st, ps, ev) -> st = COMMAND_DISALLOWED /\ ps = [] /\ ev = [] /\ s' = s.
Proof. exact running_stuck. Qed.
Print Assumptions C39_never_disabled.

Theorem C39_disable_refuted : exists h s, history start h s /\ standing_of Central 0 h = Running /\ step s (Host Central 0 (ProcedureEnable 0 false)) = Some (s, COMMAND_DISALLOWED, [], []).
Proof. exact is_running. Qed.
Print Assumptions C39_disable_refuted.

Theorem C39_ended_refuted : exists h s, history start h s /\
  (exists e before, h = e :: before /\ what e = Deliver Central true /\ events e = [ProcedureComplete SUCCESS 0 false] /\ standing_of Central 0 before = Running) /\
  standing_of Central 0 h = Running /\ step s (Host Central 0 (ProcedureEnable 0 true)) = Some (s, COMMAND_DISALLOWED, [], []).
Proof. exact ended_yet_running. Qed.
Print Assumptions C39_ended_refuted.

Theorem C39_running_until_reconfigured : forall x id e h, standing_of x id h = Running -> standing_of x id (e :: h) <> Running ->
  (exists tm ctx b r, what e = Host x tm (CreateConfig id ctx b r)) \/ (exists tm, what e = Host x tm (RemoveConfig id)) \/ (exists tm q, what e = Host x tm (SetProcedure id q)) \/
  (exists m q, what e = Deliver x m /\ got e = Some q /\ ((exists i a b, q = ConfigReq i a b) \/ exists st, q = ConfigRsp st id)).
Proof. exact running_kept. Qed.
Print Assumptions C39_running_until_reconfigured.

Theorem C50_abort_only_without_parameters_partial : forall c p h s o, history (connected c p) h s -> step s o = None ->
  exists x id q, o = Deliver x true /\ delivered s o = Some q /\ starts q id /\ standing_of x id h = Created.
Proof. exact history_abort. Qed.
Print Assumptions C50_abort_only_without_parameters_partial.

Theorem C50_no_abort_refuted : exists h s, history start h s /\ step s (Deliver Peripheral true) = None /\ standing_of Peripheral 0 h = Created /\ standing_of Central 0 h = Running /\
  Exists (start_accepted Peripheral 0) h.
Proof. exact aborts. Qed.
Print Assumptions C50_no_abort_refuted.

Theorem C51_create_exact_partial : forall c p h s x tm id context b reserved s' st ps ev, history (connected c p) h s -> role b <= 1 ->
  step s (Host x tm (CreateConfig id context b reserved)) = Some (s', st, ps, ev) ->
  st = SUCCESS <->
  exists r, capabilities_of x h = Some r /\ N.testbit (roles_of x h) (role b) = true /\ id <= 3 /\ context <= 1 /\ reserved = 0 /\ valid_body b /\
            supports (s_caps (settings_of x c p)) (role b) id b /\ supports r (1 - role b) id b.
Proof. exact history_create. Qed.
Print Assumptions C51_create_exact_partial.

Theorem C51_configurations_valid_partial : forall c p h s x id k, history (connected c p) h s -> lookup (configs (end_of x s)) id = Some k -> valid_body (the_body k).
Proof. exact configurations_valid. Qed.
Print Assumptions C51_configurations_valid_partial.

Theorem C51_sent_maps_valid : forall c p h s e m, history (connected c p) h s -> In e h -> In (MapInd m) (sent e) -> valid_map m.
Proof. exact sent_maps_valid. Qed.
Print Assumptions C51_sent_maps_valid.

Theorem C51_configuration_witness : exists h s, history start h s /\ (exists k, lookup (configs (cen s)) 0 = Some k /\ lookup (configs (per s)) 0 = Some (Config (mirrored (the_body k)) false None)) /\ quiet s.
Proof. exact has_config. Qed.
Print Assumptions C51_configuration_witness.

Theorem C51_fifteen_channels_refuted : exists h s k, history start h s /\ lookup (configs (cen s)) 0 = Some k /\ List.length (channels (channel_map (the_body k))) = 14%nat /\ quiet s.
Proof. exact too_few. Qed.
Print Assumptions C51_fifteen_channels_refuted.

Theorem C52_create_agreement_partial : forall c p h s x tm id b s1 ps1 ev1 m2 s2 st2 ps2 ev2 m3 s3 st3 ps3 ev3,
  history (connected c p) h s -> quiet s -> s_support (settings_of (other x) c p) = true ->
  step s (Host x tm (CreateConfig id 1 b 0)) = Some (s1, SUCCESS, ps1, ev1) ->
  step s1 (Deliver (other x) m2) = Some (s2, st2, ps2, ev2) -> step s2 (Deliver x m3) = Some (s3, st3, ps3, ev3) ->
  quiet s3 /\ ev1 = [] /\
  (forall i, i <> id -> lookup (configs (end_of x s3)) i = lookup (configs (end_of x s)) i /\ lookup (configs (end_of (other x) s3)) i = lookup (configs (end_of (other x) s)) i) /\
  (created_at_both x id b ev2 ev3 s3 \/ rejected_at_both x id b ev2 ev3 s s3).
Proof. exact history_agreement. Qed.
Print Assumptions C52_create_agreement_partial.

Theorem C52_supported_accepted_partial : forall c p h s x tm id b s1 ps1 ev1 m2 s2 st2 ps2 ev2 m3 s3 st3 ps3 ev3,
  let theirs := s_caps (settings_of (other x) c p) in
  history (connected c p) h s -> quiet s -> s_support (settings_of (other x) c p) = true -> role b <= 1 ->
  supports theirs 0 id b -> supports theirs 1 id b -> N.testbit (modes theirs) 0 = true -> main_mode b = 1 ->
  step s (Host x tm (CreateConfig id 1 b 0)) = Some (s1, SUCCESS, ps1, ev1) ->
  step s1 (Deliver (other x) m2) = Some (s2, st2, ps2, ev2) -> step s2 (Deliver x m3) = Some (s3, st3, ps3, ev3) ->
  created_at_both x id b ev2 ev3 s3.
Proof. exact history_accepted. Qed.
Print Assumptions C52_supported_accepted_partial.

Theorem C52_other_modes_refused : forall c p h s x tm id b s1 ps1 ev1 m2 s2 st2 ps2 ev2 m3 s3 st3 ps3 ev3,
  history (connected c p) h s -> quiet s -> s_support (settings_of (other x) c p) = true -> main_mode b <> 1 ->
  step s (Host x tm (CreateConfig id 1 b 0)) = Some (s1, SUCCESS, ps1, ev1) ->
  step s1 (Deliver (other x) m2) = Some (s2, st2, ps2, ev2) -> step s2 (Deliver x m3) = Some (s3, st3, ps3, ev3) ->
  rejected_at_both x id b ev2 ev3 s s3.
Proof. exact history_refused. Qed.
Print Assumptions C52_other_modes_refused.

Theorem C52_supported_refuted : exists h s, history start h s /\ quiet s /\ valid_body b2 /\ supports full 0 0 b2 /\ supports full 1 0 b2 /\
  (exists e, hd_error h = Some e /\ what e = Deliver Central true /\ events e = [ConfigComplete UNSUPPORTED_LMP_OR_LL_PARAMETER 0 1 b2]) /\ configs (per s) = [].
Proof. exact supported_refused. Qed.
Print Assumptions C52_supported_refuted.

Theorem C52_role_refuted : exists h s, history (connected set (Settings true reflector (Some true) None)) h s /\ quiet s /\ supports reflector (1 - role b1) 0 b1 /\
  (exists e, hd_error h = Some e /\ what e = Deliver Central true /\ events e = [ConfigComplete UNSUPPORTED_LMP_OR_LL_PARAMETER 0 1 b1]) /\ configs (per s) = [].
Proof. exact role_refused. Qed.
Print Assumptions C52_role_refuted.

Theorem C52_removal_never_agreed : forall c p h s x tm id s1 ps1 ev1 m2 s2 st2 ps2 ev2 m3 s3 st3 ps3 ev3,
  history (connected c p) h s -> quiet s -> s_support (settings_of (other x) c p) = true ->
  step s (Host x tm (RemoveConfig id)) = Some (s1, SUCCESS, ps1, ev1) ->
  step s1 (Deliver (other x) m2) = Some (s2, st2, ps2, ev2) -> step s2 (Deliver x m3) = Some (s3, st3, ps3, ev3) ->
  quiet s3 /\ lookup (configs (end_of x s3)) id = None /\ configs (end_of (other x) s3) = configs (end_of (other x) s) /\
  ev1 = [] /\ ev2 = [] /\ ev3 = [ConfigComplete UNSUPPORTED_LMP_OR_LL_PARAMETER id 0 removal].
Proof. exact history_removal. Qed.
Print Assumptions C52_removal_never_agreed.

Theorem C52_removal_refuted : exists h s, history start h s /\ quiet s /\ standing_of Central 0 h = Absent /\ standing_of Peripheral 0 h = Created /\
  exists e, In e h /\ what e = c_ (RemoveConfig 0) /\ status_of e = SUCCESS.
Proof. exact removed_kept. Qed.
Print Assumptions C52_removal_refuted.

Theorem C52_unsupported_refuted : exists h s, history (connected set (Settings false full (Some true) None)) h s /\ quiet s /\ standing_of Central 1 h = Created /\ standing_of Peripheral 1 h = Absent.
Proof. exact wrong_configuration. Qed.
Print Assumptions C52_unsupported_refuted.

Theorem C53_security_reported_encrypted : forall c p h s x o s' st ps ev, history (connected c p) h s -> step s o = Some (s', st, ps, ev) ->
  security_reported x (Entry o (delivered s o) st ps ev) ->
  Exists is_encrypt h /\ (x = Central -> Exists (security_reported Peripheral) h).
Proof. exact reported_security. Qed.
Print Assumptions C53_security_reported_encrypted.

Theorem C53_start_accepted_secured_partial : forall c p h s x id o s' st ps ev, history (connected c p) h s -> step s o = Some (s', st, ps, ev) ->
  start_accepted x id (Entry o (delivered s o) st ps ev) ->
  Exists is_encrypt h /\ standing_of x id h <> Absent /\
  match x with
  | Peripheral => Exists (security_reported Peripheral) h
  | Central => exists e, In e h /\ exists tm, what e = Host Central tm SecurityEnable /\ status_of e = SUCCESS
  end.
Proof. exact accepted_start. Qed.
Print Assumptions C53_start_accepted_secured_partial.

Theorem C53_central_refuted : exists h s, history start h s /\ Exists (start_accepted Central 0) h /\ forall x, ~ Exists (security_reported x) h.
Proof. exact accepted_without. Qed.
Print Assumptions C53_central_refuted.

Theorem C53_refused_yet_reported_refuted : exists h s, history start h s /\ ~ Exists is_encrypt h /\
  exists e, hd_error h = Some e /\ start_reported Central 0 e /\ got e = Some (CsRsp PIN_OR_KEY_MISSING 0 0).
Proof. exact refused_yet_reported. Qed.
Print Assumptions C53_refused_yet_reported_refuted.
