(** Property C77: the LE controller sends with the own address the host selected. *)
From Verif Require Import Prelude Address Rpa Table LeTypes LeAdvertise LeLists LeScan LeInitiate LeHost LeHistory LeOutputs LeListsSpec LeAdvertSpec LeFilterSpec LeOwnSpec LeOwn LeOwnInit LeListsWitness LeParamsWitness LeAdvertWitness LeFilterWitness LeOwnWitness.
Open Scope N_scope.

Theorem C77_advertises_obeying : forall aes rng cfg, cipher_ok aes -> forall h s now o s' st out p a,
  history aes rng cfg h s -> step aes rng cfg now s o = Ok s' st out -> In (Sent p) out -> advert_from p = Some a -> advertises_as aes h s a.
Proof. exact advertises_obeying. Qed.
Print Assumptions C77_advertises_obeying.

Theorem C77_legacy_enable_chosen : forall aes rng cfg, cipher_ok aes -> forall h s now s' out,
  history aes rng cfg h s -> step aes rng cfg now s (Command (SetAdvEnable true)) = Ok s' (Some SUCCESS) out ->
  l_enabled (legacy s') = true /\
  obeys aes h (snd (fst (legacy_given h))) (public_address s) (random_given h) (legacy_own_given h) (l_address (legacy s')).
Proof. exact legacy_enable_chosen. Qed.
Print Assumptions C77_legacy_enable_chosen.

Theorem C77_set_enable_chosen : forall aes rng cfg, cipher_ok aes -> forall h s now l s' out x a,
  history aes rng cfg h s -> step aes rng cfg now s (Command (SetExtEnable true l)) = Ok s' (Some SUCCESS) out ->
  In x (map en_handle l) -> lookup (sets s') x = Some a ->
  exists e, set_given x h = Some e /\
    obeys aes h (peer_device_address (e_peer e) (e_peer_kind e)) (public_address s) (set_random_given x h) (e_own e) (adv_address a).
Proof. exact set_enable_chosen. Qed.
Print Assumptions C77_set_enable_chosen.

Theorem C77_scans_obeying : forall aes rng cfg, cipher_ok aes -> forall h s now o s' st out a b,
  history aes rng cfg h s -> step aes rng cfg now s o = Ok s' st out -> In (Sent (AirScan a b)) out ->
  exists i, known_as aes s b i /\ obeys aes h i (public_address s) (random_given h) (scan_own_given h) a.
Proof. exact scans_obeying. Qed.
Print Assumptions C77_scans_obeying.

Theorem C77_connects_obeying : forall aes rng cfg, cipher_ok aes -> forall h s now o s' st out a b x y z,
  history aes rng cfg h s -> step aes rng cfg now s o = Ok s' st out -> In (Sent (AirConnect a b x y z)) out ->
  exists i k, known_as aes s b i /\ init_own_given h = Some k /\ obeys aes h i (public_address s) (random_given h) k a.
Proof. exact connects_obeying. Qed.
Print Assumptions C77_connects_obeying.

Theorem C77_public_kept : forall aes rng cfg now s o s' st out, step aes rng cfg now s o = Ok s' st out -> public_address s' = public_address s.
Proof. exact public_kept. Qed.
Print Assumptions C77_public_kept.

Theorem C77_adverts_witness : forall aes rng, exists h s s' out,
  history aes rng default_config h s
  /\ step aes rng default_config 9 s Tick = Ok s' None out
  /\ set_random_given 1 h = rand1 /\ (exists e, set_given 1 h = Some e /\ e_own e = OWN_RANDOM)
  /\ (exists irk, key_for h (AWT dev PUBLIC_DEVICE) irk) /\ (exists e, set_given 2 h = Some e /\ e_own e = OWN_RPA_OR_RANDOM)
  /\ (exists tgt c sc d si pw pr se pi b, In (Sent (AirExtended (AWT rand1 RANDOM_DEVICE) tgt c sc d si pw pr se pi b)) out)
  /\ (exists r0 r1 r2 r3 tgt c sc d si pw pr se pi b,
        In (Sent (AirExtended (AWT (generate_rpa aes irk2 r0 r1 r2 r3) RANDOM_DEVICE) tgt c sc d si pw pr se pi b)) out).
Proof. exact own_adverts_witness. Qed.
Print Assumptions C77_adverts_witness.

Theorem C77_requests_witness : forall aes rng, exists h s s' out,
  history aes rng default_config h s /\ random_given h = rand2 /\ scan_own_given h = OWN_RANDOM /\ init_own_given h = Some OWN_RPA_OR_PUBLIC
  /\ step aes rng default_config 9 s (beacon remote) = Ok s' None out
  /\ In (Sent (AirScan (AWT rand2 RANDOM_DEVICE) remote)) out
  /\ (exists r0 r1 r2 r3 x y z, In (Sent (AirConnect (AWT (generate_rpa aes irk2 r0 r1 r2 r3) RANDOM_DEVICE) remote x y z)) out).
Proof. exact own_requests_witness. Qed.
Print Assumptions C77_requests_witness.

Theorem C77_legacy_witness : forall aes rng, exists h s s' s'' h2 out,
  history aes rng default_config h s /\ legacy_own_given h = OWN_RANDOM /\ random_given h = empty_address
  /\ step aes rng default_config 5 s (Command (SetAdvEnable true)) = Ok s' (Some INVALID_PARAMETERS) []
  /\ history aes rng default_config h2 s'' /\ legacy_own_given h2 = OWN_RANDOM /\ random_given h2 = rand2
  /\ step aes rng default_config 9 s'' (Command (SetRandomAddress rand1)) = Ok s'' (Some COMMAND_DISALLOWED) []
  /\ (exists s3, step aes rng default_config 2000000 s'' Tick = Ok s3 None out)
  /\ exists tgt t b, In (Sent (AirLegacy (AWT rand2 RANDOM_DEVICE) tgt t b)) out.
Proof. exact own_legacy_witness. Qed.
Print Assumptions C77_legacy_witness.
