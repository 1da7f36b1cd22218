(** Property C110: the clients of the server. *)
From Coq Require Import String.
From Verif Require Import Prelude Table Address PhyModel PhyModelSpec TestCommand TestCommandProofs Server ServerSpec ServerProofs ServerClients ServerTest ServerWitness.
Open Scope N_scope.

Theorem C110_servers : forall (C : Type) (standard : C) config k,   nth_error (services standard config) 0 = Some Test /\
  nth_error (services standard config) 1 = Some (Link BrEdr) /\ nth_error (services standard config) 2 = Some (Link LowEnergy) /\
  configured (services standard config) (3 + k) =
    match config with
    | Some (c :: l) => nth_error (c :: l) k
    | _ => if Nat.eqb k 0 then Some standard else None
    end.
Proof. exact @configuration_of_server. Qed.
Print Assumptions C110_servers.

Theorem C110_servers_kept : forall (C : Type) (standard : C) config binds sniffer prefix l s o, history standard config binds sniffer prefix l s o -> map offers (servers s) = services standard config.
Proof. exact @servers_kept. Qed.
Print Assumptions C110_servers_kept.

Theorem C110_one_controller_per_host : forall (C : Type) (standard : C) config binds sniffer prefix l s o,   history standard config binds sniffer prefix l s o ->
  hosts (services standard config) o = controllers o ++ waiting s.
Proof. exact @one_controller_per_host. Qed.
Print Assumptions C110_one_controller_per_host.

Theorem C110_own_controller : forall (C : Type) (standard : C) config binds sniffer prefix l s o d e c i j, history standard config binds sniffer prefix l s o -> controller_of s d c i -> controller_of s e c j -> d = e /\ i = j.
Proof. exact @own_controller. Qed.
Print Assumptions C110_own_controller.

Theorem C110_attach : forall (C : Type) (standard : C) config binds sniffer prefix l s o c i conf ok reach, history standard config binds sniffer prefix l s o -> running s = Some (Attach c i conf) ->
  (reuse (sim s) = true -> exists a, with_prefix (PhyModel.prefix (sim s)) a /\ forall d, address_of (sim s) d <> Some a) ->
  exists s' d, step_event s (Finish ok reach) = Next s' [Created d c conf] /\ ~ present (sim s) d /\
    lookup (owners s') d = Some (Host c i (Some conf)) /\
    (forall e, e <> d -> lookup (owners s') e = lookup (owners s) e) /\
    (forall e, present (sim s') e <-> present (sim s) e \/ e = d) /\
    (forall x e, e <> d -> attachments (sim s') x e = attachments (sim s) x e) /\
    (forall x, In x (keys (layers (sim s))) -> attachments (sim s') x d = 1%nat) /\
    (reuse (sim s) = true -> exists a, address_of (sim s') d = Some a /\ forall e, address_of (sim s) e <> Some a).
Proof. exact @attach. Qed.
Print Assumptions C110_attach.

Theorem C110_waits_witness : exists l s o, history 0 None (fun _ : nat => true) false [218; 76; 16; 222; 0] l s o /\ running s = Some (Attach 0 3 0) /\ waiting s = [(0, 0)] /\
  always patient (start 0 None (fun _ : nat => true) false [218; 76; 16; 222; 0]) l = true /\ always no_link (start 0 None (fun _ : nat => true) false [218; 76; 16; 222; 0]) l = true.
Proof. exact host_waits. Qed.
Print Assumptions C110_waits_witness.

Theorem C110_hosts_witness : exists l s o, history 0 (Some [7; 8]) (fun _ : nat => true) false [218; 76; 16; 222; 0] l s o /\ hosts (services 0 (Some [7; 8])) o = [(0, 8); (1, 7)] /\
  controllers o = [(0, 8); (1, 7)] /\ waiting s = [] /\ controller_of s 2 0 4 /\ controller_of s 3 1 3 /\
  option_map attached (lookup (devices (sim s)) 2) = Some [0; 1] /\
  exists s2 o2, history 0 (Some [7; 8]) (fun _ : nat => true) false [218; 76; 16; 222; 0] (l ++ [BeginTick [2]; Finish true true; Begin]) s2 o2 /\ running s2 = Some (Closed 2) /\
  exists s3 o3, step_event (C := N) s2 (Finish true true) = Next s3 o3 /\ ~ controller_of s3 2 0 4 /\ controller_of s3 3 1 3.
Proof. exact two_hosts. Qed.
Print Assumptions C110_hosts_witness.

Theorem C110_controller_kept : forall (C : Type) (standard : C) config binds sniffer prefix l s o e s' o' d c i, history standard config binds sniffer prefix l s o -> controller_of s d c i -> step_event s e = Next s' o' ->
  controller_of s' d c i \/
  (running s = Some (Closed d) \/ running s = Some Clear \/
   exists x t rest, running s = Some (Command x (str "del") (t :: rest)) /\ d = to_id (parse_int t)) /\
  exists ok reach, e = Finish ok reach.
Proof. exact @controller_kept. Qed.
Print Assumptions C110_controller_kept.

Theorem C110_closed_because : forall (C : Type) (standard : C) config binds sniffer prefix l s o d, history standard config binds sniffer prefix l s o -> running s = Some (Closed d) -> exists q, In (BeginTick q) l /\ In d q.
Proof. exact @closed_because. Qed.
Print Assumptions C110_closed_because.

Theorem C110_closed_removed : forall (C : Type) (standard : C) config binds sniffer prefix l s o d ok reach, history standard config binds sniffer prefix l s o -> running s = Some (Closed d) ->
  exists s', step_event s (Finish ok reach) = Next s' [] /\ ~ present (sim s') d /\ lookup (owners s') d = None /\
    (forall e, e <> d -> (present (sim s') e <-> present (sim s) e) /\ lookup (owners s') e = lookup (owners s) e /\
       forall x, attachments (sim s') x e = attachments (sim s) x e).
Proof. exact @closed_removed. Qed.
Print Assumptions C110_closed_removed.

Theorem C110_taken_away_witness : exists l s o, history 0 None (fun _ : nat => true) false [218; 76; 16; 222; 0] l s o /\ controller_of s 2 0 3 /\ running s = Some (Command 1 (str "del") [str "2"]) /\
  exists s2 o2, step_event (C := N) s (Finish true true) = Next s2 o2 /\ lookup (owners s2) 2 = None.
Proof. exact taken_away. Qed.
Print Assumptions C110_taken_away_witness.

Theorem C110_link_added : forall (C : Type) (standard : C) config binds sniffer prefix l s o i c ty, history standard config binds sniffer prefix l s o -> adding s = Some (i, c, ty) ->
  exists s' d, step_event s Added = Next s' [] /\ ~ present (sim s) d /\
    lookup (owners s') d = Some (Peer c ty) /\
    (forall e, e <> d -> lookup (owners s') e = lookup (owners s) e) /\
    (forall e, present (sim s') e <-> present (sim s) e \/ e = d) /\
    (forall x e, e <> d -> attachments (sim s') x e = attachments (sim s) x e) /\
    (forall x y, lookup (layers (sim s)) x = Some y -> attachments (sim s') x d = if phy_eqb (ltype y) ty then 1%nat else 0%nat).
Proof. exact @link_added. Qed.
Print Assumptions C110_link_added.

Theorem C110_link_witness : exists l s o, history 0 None (fun _ : nat => true) false [218; 76; 16; 222; 0] l s o /\ adding s = Some (2%nat, 0, LowEnergy) /\
  exists s2 o2, step_event (C := N) s Added = Next s2 o2 /\ lookup (owners s2) 2 = Some (Peer 0 LowEnergy) /\
  option_map attached (lookup (devices (sim s2)) 2) = Some [1].
Proof. exact link_client. Qed.
Print Assumptions C110_link_witness.

Theorem C110_always_listens : forall (C : Type) (standard : C) config binds sniffer prefix l s o i v, history standard config binds sniffer prefix l s o -> nth_error (servers s) i = Some v -> binds i = true -> todo s = [] ->
  listening v = true \/ exists c ty, adding s = Some (i, c, ty).
Proof. exact @always_listens. Qed.
Print Assumptions C110_always_listens.

Theorem C110_busy_port : forall (C : Type) (standard : C) config binds sniffer prefix l s o i ok, history standard config binds sniffer prefix l s o -> binds i = false -> step_event s (Connect i ok) = Blocked.
Proof. exact @busy_port. Qed.
Print Assumptions C110_busy_port.

Theorem C110_deaf_refuted : exists l s o, history 0 None all_but_test false [218; 76; 16; 222; 0] l s o /\ todo s = [] /\ 
  step_event (C := N) s (Connect 0 true) = Blocked /\ exists s2 o2, step_event (C := N) s (Connect 3 true) = Next s2 o2.
Proof. exact deaf. Qed.
Print Assumptions C110_deaf_refuted.

Theorem C110_one_test_client : forall (C : Type) (standard : C) config binds sniffer prefix l s o c d, history standard config binds sniffer prefix l s o -> In c (watched s) -> In d (watched s) -> c = d.
Proof. exact @one_at_a_time. Qed.
Print Assumptions C110_one_test_client.

Theorem C110_test_accept : forall (C : Type) (standard : C) config binds sniffer prefix l s o ok s' o', history standard config binds sniffer prefix l s o -> step_event s (Connect 0 ok) = Next s' o' ->
  (watched s = [] -> o' = [Accepted (next s) 0; Sent (next s) Greeting] /\ watched s' = [next s]) /\
  (watched s <> [] -> o' = [Accepted (next s) 0; Sent (next s) Broken] /\ watched s' = watched s) /\
  sim s' = sim s /\ owners s' = owners s /\ queue s' = queue s.
Proof. exact @test_accept. Qed.
Print Assumptions C110_test_accept.

Theorem C110_test_reads : forall (C : Type) (standard : C) config binds sniffer prefix l s o c, history standard config binds sniffer prefix l s o -> In (Accepted c 0) o ->
  texts c o = [Broken] \/ exists r, texts c o = Greeting :: r /\ forallb is_answer r = true.
Proof. exact @test_reads. Qed.
Print Assumptions C110_test_reads.

Theorem C110_test_witness : exists l s o, history 0 None (fun _ : nat => true) false [218; 76; 16; 222; 0] l s o /\ always patient (start 0 None (fun _ : nat => true) false [218; 76; 16; 222; 0]) l = true /\
  watched s = [0] /\ running s = Some (Command 0 (str "list") []) /\ texts 0 o = [Greeting] /\ texts 1 o = [Broken] /\
  exists s2 o2 r, step_event (C := N) s (Finish true true) = Next s2 o2 /\ o2 = [Sent 0 (Answer (str "list") r)].
Proof. exact test_client. Qed.
Print Assumptions C110_test_witness.

Theorem C110_answer_to_asker_partial : forall (C : Type) (standard : C) config binds sniffer prefix l s o c name args ok reach s' o' x t, history standard config binds sniffer prefix l s o -> always patient (start standard config binds sniffer prefix) l = true ->
  running s = Some (Command c name args) -> step_event s (Finish ok reach) = Next s' o' -> In (Sent x t) o' -> x = c.
Proof. exact @answer_to_asker. Qed.
Print Assumptions C110_answer_to_asker_partial.

Theorem C110_answers_arrive_partial : forall (C : Type) (standard : C) config binds sniffer prefix l s o c name args ok reach s' o', history standard config binds sniffer prefix l s o -> always patient (start standard config binds sniffer prefix) l = true ->
  running s = Some (Command c name args) -> In c (watched s) -> ends name = false -> step_event s (Finish ok reach) = Next s' o' ->
  exists e r, handle name args = Ok e r /\ o' = map (fun x => Sent c (Answer name x)) r.
Proof. exact @answers_arrive. Qed.
Print Assumptions C110_answers_arrive_partial.

Theorem C110_main_silent_partial : forall (C : Type) (standard : C) config binds sniffer prefix l s o ok reach s' o', history standard config binds sniffer prefix l s o -> always patient (start standard config binds sniffer prefix) l = true ->
  step_event s (Main ok reach) = Next s' o' -> o' = [].
Proof. exact @main_silent. Qed.
Print Assumptions C110_main_silent_partial.

Theorem C110_answer_to_another_refuted : exists l s o c x name args s2 o2 t, history 0 None (fun _ : nat => true) false [218; 76; 16; 222; 0] l s o /\ running s = Some (Command c name args) /\
  step_event (C := N) s (Finish true true) = Next s2 o2 /\ o2 = [Sent x t] /\ is_answer t = true /\ x <> c /\
  (forall n a, ~ In (Request x n a) l).
Proof. exact answer_to_another. Qed.
Print Assumptions C110_answer_to_another_refuted.

Theorem C110_answers_unasked_refuted : exists l s o c r, history 0 None (fun _ : nat => true) false [218; 76; 16; 222; 0] l s o /\ texts c o = [Greeting; Answer (str "add_phy") r] /\
  (forall x n a, ~ In (Request x n a) l).
Proof. exact answers_unasked. Qed.
Print Assumptions C110_answers_unasked_refuted.

Theorem C110_first_topology_partial : forall (C : Type) (standard : C) config binds sniffer prefix l s o r, history standard config binds sniffer prefix l s o -> always patient (start standard config binds sniffer prefix) l = true ->
  todo s = Listen 1 :: r -> sim s = first_topology prefix /\ owners s = [] /\ ticking (clock s) = [(1, 5)].
Proof. exact @first_is. Qed.
Print Assumptions C110_first_topology_partial.

Theorem C110_first_topology_witness : exists l s o r, history 0 None (fun _ : nat => true) false [218; 76; 16; 222; 0] l s o /\ always patient (start 0 None (fun _ : nat => true) false [218; 76; 16; 222; 0]) l = true /\
  todo s = Listen 1 :: r /\ sim s = first_topology [218; 76; 16; 222; 0].
Proof. exact set_up. Qed.
Print Assumptions C110_first_topology_witness.

Theorem C110_topology_spoiled_refuted : exists l s o r, history 0 None (fun _ : nat => true) false [218; 76; 16; 222; 0] l s o /\ todo s = Listen 1 :: r /\ sim s <> first_topology [218; 76; 16; 222; 0] /\
  lookup (devices (sim s)) 2 = Some {| addr := beacon 2; attached := [] |} /\
  forallb (fun y => negb (mem 2 (members (snd y)))) (layers (sim s)) = true.
Proof. exact topology_spoiled. Qed.
Print Assumptions C110_topology_spoiled_refuted.

Theorem C110_race_free_partial : forall (C : Type) (standard : C) config binds sniffer prefix l s o e, sniffer = false -> history standard config binds sniffer prefix l s o ->
  always patient (start standard config binds sniffer prefix) l = true -> always no_link (start standard config binds sniffer prefix) l = true ->
  patient s e = true -> no_link s e = true -> step_event s e <> Race.
Proof. exact @no_race. Qed.
Print Assumptions C110_race_free_partial.

Theorem C110_link_race_refuted : exists l s o, history 0 None (fun _ : nat => true) false [218; 76; 16; 222; 0] l s o /\ always patient (start 0 None (fun _ : nat => true) false [218; 76; 16; 222; 0]) l = true /\
  step_event (C := N) s (Connect 1 true) = Race.
Proof. exact link_race. Qed.
Print Assumptions C110_link_race_refuted.

Theorem C110_sniffer_race_refuted : exists l s o, history 0 None (fun _ : nat => true) true [218; 76; 16; 222; 0] l s o /\ always patient (start 0 None (fun _ : nat => true) true [218; 76; 16; 222; 0]) l = true /\
  always no_link (start 0 None (fun _ : nat => true) true [218; 76; 16; 222; 0]) l = true /\ step_event (C := N) s (Main true true) = Race.
Proof. exact sniffer_race. Qed.
Print Assumptions C110_sniffer_race_refuted.

Theorem C110_early_race_refuted : exists l s o, history 0 None (fun _ : nat => true) false [218; 76; 16; 222; 0] l s o /\ always no_link (start 0 None (fun _ : nat => true) false [218; 76; 16; 222; 0]) l = true /\
  step_event (C := N) s Begin = Race.
Proof. exact early_race. Qed.
Print Assumptions C110_early_race_refuted.

Theorem C110_stops_because_partial : forall (C : Type) (standard : C) config binds sniffer prefix l s o e, history standard config binds sniffer prefix l s o -> step_event s e = Crash ->
  (exists i, e = Connect i false) \/ (exists reach, e = Main false reach) \/
  (exists ok reach c name args, e = Finish ok reach /\ running s = Some (Command c name args) /\
     (ok = false \/ (needs_argument name /\ args = []) \/ bad_interval name args \/ (ended s = true /\ name = str "END_SIMULATION"))).
Proof. exact @stops_because. Qed.
Print Assumptions C110_stops_because_partial.

Theorem C110_ended_iff : forall (C : Type) (standard : C) config binds sniffer prefix l s o, history standard config binds sniffer prefix l s o -> (ended s = true <-> In Ended o).
Proof. exact @ended_iff. Qed.
Print Assumptions C110_ended_iff.

Theorem C110_end_twice_refuted : exists l s o, history 0 None (fun _ : nat => true) false [218; 76; 16; 222; 0] l s o /\ always patient (start 0 None (fun _ : nat => true) false [218; 76; 16; 222; 0]) l = true /\
  In Ended o /\ step_event (C := N) s (Finish true true) = Crash.
Proof. exact end_twice. Qed.
Print Assumptions C110_end_twice_refuted.

Theorem C110_client_gone_refuted : exists l s o, history 0 None (fun _ : nat => true) false [218; 76; 16; 222; 0] l s o /\ always patient (start 0 None (fun _ : nat => true) false [218; 76; 16; 222; 0]) l = true /\
  step_event (C := N) s (Connect 0 false) = Crash /\ running s = Some (Command 0 (str "list") []) /\ step_event (C := N) s (Finish false true) = Crash.
Proof. exact client_gone. Qed.
Print Assumptions C110_client_gone_refuted.

Theorem C110_bad_number_refuted : exists l s o, history 0 None (fun _ : nat => true) false [218; 76; 16; 222; 0] l s o /\ always patient (start 0 None (fun _ : nat => true) false [218; 76; 16; 222; 0]) l = true /\
  step_event (C := N) s (Finish true true) = Crash.
Proof. exact bad_number. Qed.
Print Assumptions C110_bad_number_refuted.
