(** Tactics for the LE controller model: simplification of record updates. *)
From Verif Require Import Prelude LeTypes.

Ltac le_simpl := cbn [
    connectable scannable directed high_duty legacy_pdus anonymous tx_power bytes partial set_handle props
    interval channel_map own peer_kind peer set_random policy power primary secondary sid scan_notify adv_data
    scan_data periodic_on periodic_latch periodic_interval periodic_data next_periodic max_events num_events
    enabled adv_address target next_event timeout l_interval l_type l_own l_peer_kind l_peer l_map l_policy l_data
    l_scan_data l_enabled l_address l_target l_next l_timeout sp_enabled sp_kind sp_interval sp_window
    sr_connectable sr_extended sr_primary sr_secondary sr_timeout scan_enabled scan_period scan_duration scan_dups
    scan_own scan_filter scan_1m scan_coded scan_pending scan_timeout scan_period_timeout scan_history ip_enabled
    ip_scan_interval ip_scan_window ip_interval_min ip_interval_max ip_latency ip_supervision ip_min_ce ip_max_ce
    init_enabled init_filter init_peer init_own init_1m init_2m init_coded init_address init_pending sy_use_list
    sy_kind sy_address sy_sid sy_timeout sd_kind sd_address sd_sid sd_sync_timeout sd_timeout c_peer c_own
    c_resolved c_central c_interval c_latency c_supervision public_address random_address legacy_used
    extended_used legacy sets accept resolving resolving_on padv scan init syncing synced conns last_handle
    event_mask event_mask_2 le_mask rand_pos cfg_num_sets cfg_max_data cfg_accept_size cfg_resolving_size
    cfg_padv_size cfg_phys cfg_2m cfg_coded cfg_receive_enable cfg_adi with_connectable with_scannable
    with_directed with_high_duty with_legacy_pdus with_anonymous with_tx_power with_bytes with_partial
    with_set_handle with_props with_interval with_channel_map with_own with_peer_kind with_peer with_set_random
    with_policy with_power with_primary with_secondary with_sid with_scan_notify with_adv_data with_scan_data
    with_periodic_on with_periodic_latch with_periodic_interval with_periodic_data with_next_periodic
    with_max_events with_num_events with_enabled with_adv_address with_target with_next_event with_timeout
    with_l_interval with_l_type with_l_own with_l_peer_kind with_l_peer with_l_map with_l_policy with_l_data
    with_l_scan_data with_l_enabled with_l_address with_l_target with_l_next with_l_timeout with_sp_enabled
    with_sp_kind with_sp_interval with_sp_window with_sr_connectable with_sr_extended with_sr_primary
    with_sr_secondary with_sr_timeout with_scan_enabled with_scan_period with_scan_duration with_scan_dups
    with_scan_own with_scan_filter with_scan_1m with_scan_coded with_scan_pending with_scan_timeout
    with_scan_period_timeout with_scan_history with_ip_enabled with_ip_scan_interval with_ip_scan_window
    with_ip_interval_min with_ip_interval_max with_ip_latency with_ip_supervision with_ip_min_ce with_ip_max_ce
    with_init_enabled with_init_filter with_init_peer with_init_own with_init_1m with_init_2m with_init_coded
    with_init_address with_init_pending with_sy_use_list with_sy_kind with_sy_address with_sy_sid with_sy_timeout
    with_sd_kind with_sd_address with_sd_sid with_sd_sync_timeout with_sd_timeout with_c_peer with_c_own
    with_c_resolved with_c_central with_c_interval with_c_latency with_c_supervision with_public_address
    with_random_address with_legacy_used with_extended_used with_legacy with_sets with_accept with_resolving
    with_resolving_on with_padv with_scan with_init with_syncing with_synced with_conns with_last_handle
    with_event_mask with_event_mask_2 with_le_mask with_rand_pos with_cfg_num_sets with_cfg_max_data
    with_cfg_accept_size with_cfg_resolving_size with_cfg_padv_size with_cfg_phys with_cfg_2m with_cfg_coded
    with_cfg_receive_enable with_cfg_adi].
Ltac le_simpl_in H := cbn [
    connectable scannable directed high_duty legacy_pdus anonymous tx_power bytes partial set_handle props
    interval channel_map own peer_kind peer set_random policy power primary secondary sid scan_notify adv_data
    scan_data periodic_on periodic_latch periodic_interval periodic_data next_periodic max_events num_events
    enabled adv_address target next_event timeout l_interval l_type l_own l_peer_kind l_peer l_map l_policy l_data
    l_scan_data l_enabled l_address l_target l_next l_timeout sp_enabled sp_kind sp_interval sp_window
    sr_connectable sr_extended sr_primary sr_secondary sr_timeout scan_enabled scan_period scan_duration scan_dups
    scan_own scan_filter scan_1m scan_coded scan_pending scan_timeout scan_period_timeout scan_history ip_enabled
    ip_scan_interval ip_scan_window ip_interval_min ip_interval_max ip_latency ip_supervision ip_min_ce ip_max_ce
    init_enabled init_filter init_peer init_own init_1m init_2m init_coded init_address init_pending sy_use_list
    sy_kind sy_address sy_sid sy_timeout sd_kind sd_address sd_sid sd_sync_timeout sd_timeout c_peer c_own
    c_resolved c_central c_interval c_latency c_supervision public_address random_address legacy_used
    extended_used legacy sets accept resolving resolving_on padv scan init syncing synced conns last_handle
    event_mask event_mask_2 le_mask rand_pos cfg_num_sets cfg_max_data cfg_accept_size cfg_resolving_size
    cfg_padv_size cfg_phys cfg_2m cfg_coded cfg_receive_enable cfg_adi with_connectable with_scannable
    with_directed with_high_duty with_legacy_pdus with_anonymous with_tx_power with_bytes with_partial
    with_set_handle with_props with_interval with_channel_map with_own with_peer_kind with_peer with_set_random
    with_policy with_power with_primary with_secondary with_sid with_scan_notify with_adv_data with_scan_data
    with_periodic_on with_periodic_latch with_periodic_interval with_periodic_data with_next_periodic
    with_max_events with_num_events with_enabled with_adv_address with_target with_next_event with_timeout
    with_l_interval with_l_type with_l_own with_l_peer_kind with_l_peer with_l_map with_l_policy with_l_data
    with_l_scan_data with_l_enabled with_l_address with_l_target with_l_next with_l_timeout with_sp_enabled
    with_sp_kind with_sp_interval with_sp_window with_sr_connectable with_sr_extended with_sr_primary
    with_sr_secondary with_sr_timeout with_scan_enabled with_scan_period with_scan_duration with_scan_dups
    with_scan_own with_scan_filter with_scan_1m with_scan_coded with_scan_pending with_scan_timeout
    with_scan_period_timeout with_scan_history with_ip_enabled with_ip_scan_interval with_ip_scan_window
    with_ip_interval_min with_ip_interval_max with_ip_latency with_ip_supervision with_ip_min_ce with_ip_max_ce
    with_init_enabled with_init_filter with_init_peer with_init_own with_init_1m with_init_2m with_init_coded
    with_init_address with_init_pending with_sy_use_list with_sy_kind with_sy_address with_sy_sid with_sy_timeout
    with_sd_kind with_sd_address with_sd_sid with_sd_sync_timeout with_sd_timeout with_c_peer with_c_own
    with_c_resolved with_c_central with_c_interval with_c_latency with_c_supervision with_public_address
    with_random_address with_legacy_used with_extended_used with_legacy with_sets with_accept with_resolving
    with_resolving_on with_padv with_scan with_init with_syncing with_synced with_conns with_last_handle
    with_event_mask with_event_mask_2 with_le_mask with_rand_pos with_cfg_num_sets with_cfg_max_data
    with_cfg_accept_size with_cfg_resolving_size with_cfg_padv_size with_cfg_phys with_cfg_2m with_cfg_coded
    with_cfg_receive_enable with_cfg_adi] in H.
Ltac le_simpl_all := cbn [
    connectable scannable directed high_duty legacy_pdus anonymous tx_power bytes partial set_handle props
    interval channel_map own peer_kind peer set_random policy power primary secondary sid scan_notify adv_data
    scan_data periodic_on periodic_latch periodic_interval periodic_data next_periodic max_events num_events
    enabled adv_address target next_event timeout l_interval l_type l_own l_peer_kind l_peer l_map l_policy l_data
    l_scan_data l_enabled l_address l_target l_next l_timeout sp_enabled sp_kind sp_interval sp_window
    sr_connectable sr_extended sr_primary sr_secondary sr_timeout scan_enabled scan_period scan_duration scan_dups
    scan_own scan_filter scan_1m scan_coded scan_pending scan_timeout scan_period_timeout scan_history ip_enabled
    ip_scan_interval ip_scan_window ip_interval_min ip_interval_max ip_latency ip_supervision ip_min_ce ip_max_ce
    init_enabled init_filter init_peer init_own init_1m init_2m init_coded init_address init_pending sy_use_list
    sy_kind sy_address sy_sid sy_timeout sd_kind sd_address sd_sid sd_sync_timeout sd_timeout c_peer c_own
    c_resolved c_central c_interval c_latency c_supervision public_address random_address legacy_used
    extended_used legacy sets accept resolving resolving_on padv scan init syncing synced conns last_handle
    event_mask event_mask_2 le_mask rand_pos cfg_num_sets cfg_max_data cfg_accept_size cfg_resolving_size
    cfg_padv_size cfg_phys cfg_2m cfg_coded cfg_receive_enable cfg_adi with_connectable with_scannable
    with_directed with_high_duty with_legacy_pdus with_anonymous with_tx_power with_bytes with_partial
    with_set_handle with_props with_interval with_channel_map with_own with_peer_kind with_peer with_set_random
    with_policy with_power with_primary with_secondary with_sid with_scan_notify with_adv_data with_scan_data
    with_periodic_on with_periodic_latch with_periodic_interval with_periodic_data with_next_periodic
    with_max_events with_num_events with_enabled with_adv_address with_target with_next_event with_timeout
    with_l_interval with_l_type with_l_own with_l_peer_kind with_l_peer with_l_map with_l_policy with_l_data
    with_l_scan_data with_l_enabled with_l_address with_l_target with_l_next with_l_timeout with_sp_enabled
    with_sp_kind with_sp_interval with_sp_window with_sr_connectable with_sr_extended with_sr_primary
    with_sr_secondary with_sr_timeout with_scan_enabled with_scan_period with_scan_duration with_scan_dups
    with_scan_own with_scan_filter with_scan_1m with_scan_coded with_scan_pending with_scan_timeout
    with_scan_period_timeout with_scan_history with_ip_enabled with_ip_scan_interval with_ip_scan_window
    with_ip_interval_min with_ip_interval_max with_ip_latency with_ip_supervision with_ip_min_ce with_ip_max_ce
    with_init_enabled with_init_filter with_init_peer with_init_own with_init_1m with_init_2m with_init_coded
    with_init_address with_init_pending with_sy_use_list with_sy_kind with_sy_address with_sy_sid with_sy_timeout
    with_sd_kind with_sd_address with_sd_sid with_sd_sync_timeout with_sd_timeout with_c_peer with_c_own
    with_c_resolved with_c_central with_c_interval with_c_latency with_c_supervision with_public_address
    with_random_address with_legacy_used with_extended_used with_legacy with_sets with_accept with_resolving
    with_resolving_on with_padv with_scan with_init with_syncing with_synced with_conns with_last_handle
    with_event_mask with_event_mask_2 with_le_mask with_rand_pos with_cfg_num_sets with_cfg_max_data
    with_cfg_accept_size with_cfg_resolving_size with_cfg_padv_size with_cfg_phys with_cfg_2m with_cfg_coded
    with_cfg_receive_enable with_cfg_adi] in *.
