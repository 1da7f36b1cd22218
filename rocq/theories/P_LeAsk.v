(** Property C104: what a host learns about the controller at the other end of an LE connection. *)
From Verif Require Import Prelude LeLink LeLinkSpec LeAskSpec LeAsk LeLinkWitness LeAskWitness.
Open Scope N_scope.

Theorem C104_answers_partial : forall c p i lat tmo h s x, history (connected c p i lat tmo) h s -> subversion (s_about (setting (other x) c p)) < 256 -> listens x h ->
  exists rest, due x (s_about (setting (other x) c p)) h = told x h ++ rest /\ (quiet s -> up (cen s) = true -> up (per s) = true -> rest = []).
Proof. exact answers. Qed.
Print Assumptions C104_answers_partial.

Theorem C104_answers_witness : exists h s, history (connected set streaming 24 0 500) h s /\ listens Central h /\ listens Peripheral h /\ quiet s /\ up (cen s) = true /\ up (per s) = true /\
  told Central h = [VersionComplete SUCCESS 12 15 7; FeaturesComplete SUCCESS 0x10000001f; FeaturesComplete SUCCESS 0x10000001f] /\
  told Peripheral h = [FeaturesComplete SUCCESS 0x1f] /\ due Peripheral (s_about set) h = told Peripheral h.
Proof. exact asked_both. Qed.
Print Assumptions C104_answers_witness.

Theorem C104_truth_partial : forall c p i lat tmo h s x, history (connected c p i lat tmo) h s -> forall e ev, In e h -> on_side x (what e) = true -> In ev (events e) ->
  let a := s_about (setting (other x) c p) in
  (forall st f, ev = FeaturesComplete st f -> st = SUCCESS /\ f = all_features a) /\
  (forall st v man sub, ev = VersionComplete st v man sub -> st = SUCCESS /\ v = version a /\ man = manufacturer a /\ sub = subversion a mod 256).
Proof. exact truth. Qed.
Print Assumptions C104_truth_partial.

Theorem C104_known_features : forall c p i lat tmo h s x f, history (connected c p i lat tmo) h s -> known_features (end_of x s) = Some f -> f = all_features (s_about (setting (other x) c p)).
Proof. exact known. Qed.
Print Assumptions C104_known_features.

Theorem C104_closed_witness : exists h s, history (connected set streaming 24 0 500) h s /\ quiet s /\ told Central h = [] /\
  due Central (s_about streaming) h = [FeaturesComplete SUCCESS 0x10000001f; VersionComplete SUCCESS 12 15 7] /\ up (per s) = false /\ known_features (cen s) = Some 0x10000001f.
Proof. exact masked_or_closed. Qed.
Print Assumptions C104_closed_witness.

Theorem C104_subversion_refuted : exists h s, history (connected set long 24 0 500) h s /\ listens Central h /\ quiet s /\ up (cen s) = true /\ up (per s) = true /\
  due Central (s_about long) h = [VersionComplete SUCCESS 12 15 0x5ad2] /\ told Central h = [VersionComplete SUCCESS 12 15 0xd2].
Proof. exact long_subversion. Qed.
Print Assumptions C104_subversion_refuted.

Theorem C104_read_phy : forall c p i lat tmo h s x m, history (connected c p i lat tmo) h s -> up (end_of x s) = true ->
  exists tx rx, step s (Host x m ReadPhy) = Some (s, SUCCESS, [PhysAre tx rx]) /\
  ((forall e, In e h -> on_side x (what e) = true -> mask_of (what e) M_PHY_UPDATE = true) -> told_phys x h = (tx, rx)) /\
  (quiet s -> forall m', up (end_of (other x) s) = true -> step s (Host (other x) m' ReadPhy) = Some (s, SUCCESS, [PhysAre rx tx])).
Proof. exact read_phy. Qed.
Print Assumptions C104_read_phy.

Theorem C104_read_phy_witness : exists h s, history start h s /\ quiet s /\ (forall e, In e h -> mask_of (what e) M_PHY_UPDATE = true) /\
  step s (Host Central all ReadPhy) = Some (s, SUCCESS, [PhysAre LE_2M LE_CODED]) /\ step s (Host Peripheral all ReadPhy) = Some (s, SUCCESS, [PhysAre LE_CODED LE_2M]).
Proof. exact phys_read. Qed.
Print Assumptions C104_read_phy_witness.

Theorem C104_host_feature : forall m e others bit value e' st ps ev, do_command m e (SetHostFeature others bit value) = (e', st, ps, ev) ->
  ps = [] /\ ev = [] /\ (st = SUCCESS <-> (host_controlled bit /\ value <= 1 /\ up e = false /\ others = false)) /\
  (st <> SUCCESS -> e' = e) /\
  (st = SUCCESS -> e' = with_info (info e') e /\
     forall b, N.testbit (all_features (info e')) b = N.testbit (le_features (info e)) b || (if b =? bit then value =? 1 else N.testbit (host_features (info e)) b)).
Proof. exact host_feature. Qed.
Print Assumptions C104_host_feature.

Theorem C104_features_kept : forall c p i lat tmo h s x, history (connected c p i lat tmo) h s -> up (end_of x s) = true -> info (end_of x s) = s_about (setting x c p).
Proof. exact features_kept. Qed.
Print Assumptions C104_features_kept.

Theorem C104_host_feature_witness : exists h s, history (connected set streaming 24 0 500) h s /\ up (per s) = false /\
  (exists e, In e h /\ what e = Host Peripheral all (SetHostFeature false 32 0) /\ status_of e = COMMAND_DISALLOWED) /\
  (exists e, In e h /\ what e = Host Peripheral all (SetHostFeature false 32 0) /\ status_of e = SUCCESS) /\ all_features (info (per s)) = 0x1f.
Proof. exact feature_set. Qed.
Print Assumptions C104_host_feature_witness.

Theorem C104_harmless : forall s x m c s' st ev, question c = true -> step s (Host x m c) = Some (s', st, ev) ->
  cen s' = cen s /\ per s' = per s /\ (st <> SUCCESS -> s' = s /\ ev = []) /\
  (st = UNKNOWN_CONNECTION <-> up (end_of x s) = false) /\
  (up (end_of x s) = true -> st = SUCCESS \/
     exists o t, c = SetDataLength o t /\ st = INVALID_HCI_COMMAND_PARAMETERS /\ ~ (0x1b <= o <= 0xfb /\ 0x148 <= t <= 0x4290)).
Proof. exact harmless. Qed.
Print Assumptions C104_harmless.
