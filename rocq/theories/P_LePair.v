(** Property C106: two LE controllers agree on the connections between them. *)
From Verif Require Import Prelude Address Rpa Table LeTypes LeAdvertise LeLists LeScan LeInitiate LeHost LeHistory LeListsWitness LeParamsWitness LePairSpec LePair LePairAgree LePairWitness.
Open Scope N_scope.

Theorem C106_agreement_partial : forall aes rng1 rng2 cfg1 cfg2, forall p, reaches aes rng1 rng2 cfg1 cfg2 careful p -> at_rest p ->
  (forall h c, In (h, c) (conns (phone p)) -> exists h' c', In (h', c') (conns (watch p)) /\ mirror c c') /\
  (forall h' c', In (h', c') (conns (watch p)) -> exists h c, In (h, c) (conns (phone p)) /\ mirror c c').
Proof. exact agreement. Qed.
Print Assumptions C106_agreement_partial.

Theorem C106_agreement_witness : forall aes rng, exists p c c', reaches aes rng rng default_config default_config careful p /\ at_rest p /\
  conns (phone p) = [(512, c)] /\ conns (watch p) = [(512, c')] /\ c_peer c = remote /\ c_interval c = 40 /\ c_central c = true /\ c_central c' = false.
Proof. exact connected_witness. Qed.
Print Assumptions C106_agreement_witness.

Theorem C106_two_ends_partial : forall aes rng1 rng2 cfg1 cfg2, forall p h c h' c', reaches aes rng1 rng2 cfg1 cfg2 careful p ->
  In (h, c) (conns (phone p)) -> In (h', c') (conns (watch p)) ->
  awt_addr (c_own c) = awt_addr (c_peer c') -> awt_addr (c_peer c) = awt_addr (c_own c') -> mirror c c'.
Proof. exact two_ends. Qed.
Print Assumptions C106_two_ends_partial.

Theorem C106_one_link_partial : forall aes rng1 rng2 cfg1 cfg2, forall p h h2 c c2, reaches aes rng1 rng2 cfg1 cfg2 careful p ->
  awt_addr (c_own c) = awt_addr (c_own c2) -> awt_addr (c_peer c) = awt_addr (c_peer c2) ->
  (In (h, c) (conns (phone p)) -> In (h2, c2) (conns (phone p)) -> c = c2) /\
  (In (h, c) (conns (watch p)) -> In (h2, c2) (conns (watch p)) -> c = c2).
Proof. exact one_link. Qed.
Print Assumptions C106_one_link_partial.

Theorem C106_phone_only_partial : forall aes rng1 rng2 cfg1 cfg2, forall p h c, reaches aes rng1 rng2 cfg1 cfg2 careful p -> In (h, c) (conns (phone p)) ->
  (exists h' c', In (h', c') (conns (watch p)) /\ mirror c c') \/
  exists r, In (AirDisconnect (awt_addr (c_peer c)) (awt_addr (c_own c)) r) (to_phone p).
Proof. exact phone_only. Qed.
Print Assumptions C106_phone_only_partial.

Theorem C106_closing_witness : forall aes rng, exists p c r, reaches aes rng rng default_config default_config careful p /\
  conns (phone p) = [(512, c)] /\ conns (watch p) = [] /\ to_phone p = [AirDisconnect (awt_addr (c_peer c)) (awt_addr (c_own c)) r].
Proof. exact closing_witness. Qed.
Print Assumptions C106_closing_witness.

Theorem C106_watch_only_partial : forall aes rng1 rng2 cfg1 cfg2, forall p h c, reaches aes rng1 rng2 cfg1 cfg2 careful p -> In (h, c) (conns (watch p)) ->
  (exists h' c', In (h', c') (conns (phone p)) /\ mirror c' c) \/
  (exists r, In (AirDisconnect (awt_addr (c_peer c)) (awt_addr (c_own c)) r) (to_watch p)) \/
  In (AirConnectComplete (c_peer c) (c_own c) (c_interval c) (c_latency c) (c_supervision c)) (to_phone p).
Proof. exact watch_only. Qed.
Print Assumptions C106_watch_only_partial.

Theorem C106_answered_witness : forall aes rng, exists p c, reaches aes rng rng default_config default_config careful p /\
  conns (phone p) = [] /\ conns (watch p) = [(512, c)] /\ to_watch p = [].
Proof. exact answered_witness. Qed.
Print Assumptions C106_answered_witness.

Theorem C106_one_request : forall aes rng1 rng2 cfg1 cfg2, forall p o sent p1 p2 o2 sent2 p3 a adv i lat sup,   moves aes rng1 rng2 cfg1 cfg2 p (PhoneDoes o sent) p1 -> In (AirConnect a adv i lat sup) sent ->
  leads aes rng1 rng2 cfg1 cfg2 pending p1 p2 ->
  moves aes rng1 rng2 cfg1 cfg2 p2 (PhoneDoes o2 sent2) p3 -> pending (PhoneDoes o2 sent2) ->
  forall a' adv' i' lat' sup', ~ In (AirConnect a' adv' i' lat' sup') sent2.
Proof. exact one_request. Qed.
Print Assumptions C106_one_request.

Theorem C106_one_request_witness : forall aes rng, exists p o sent p1 p2 o2 p3 a,
  moves aes rng rng default_config default_config p (PhoneDoes o sent) p1 /\ In (AirConnect a remote 40 0 500) sent /\
  leads aes rng rng default_config default_config pending p1 p2 /\
  moves aes rng rng default_config default_config p2 (PhoneDoes (Receive o2) []) p3 /\ pending (PhoneDoes (Receive o2) []) /\
  exists adv, o2 = AirLegacy adv no_address PDU_IND [].
Proof. exact one_request_witness. Qed.
Print Assumptions C106_one_request_witness.

Theorem C106_half_open_refuted : forall aes rng, exists p c, reaches aes rng rng default_config default_config anyhow p /\ at_rest p /\
  conns (phone p) = [] /\ conns (watch p) = [(512, c)] /\ to_watch p = [] /\ to_phone p = [].
Proof. exact half_open. Qed.
Print Assumptions C106_half_open_refuted.

Theorem C106_mixed_up_refuted : forall aes rng, exists p c c', reaches aes rng rng default_config default_config anyhow p /\ at_rest p /\
  conns (phone p) = [(513, c)] /\ conns (watch p) = [(512, c')] /\ c_peer c = c_own c' /\ c_own c = c_peer c' /\ c_interval c = 24 /\ c_interval c' = 40.
Proof. exact mixed_up. Qed.
Print Assumptions C106_mixed_up_refuted.

Theorem C106_forgotten_refuted : forall aes rng, exists p p' q, reaches aes rng rng default_config default_config careful p /\ at_rest p /\
  moves aes rng rng default_config default_config p (PhoneDoes (Receive (AirLegacy q no_address PDU_IND [])) []) p' /\ q = remote /\
  conns (phone p') = [] /\ to_watch p' = [] /\ to_phone p' = [] /\ init_enabled (init (phone p')) = true /\ l_enabled (legacy (watch p')) = true.
Proof. exact forgotten. Qed.
Print Assumptions C106_forgotten_refuted.
