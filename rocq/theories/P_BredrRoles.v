(** Property C99: the roles of the two ends of a BR/EDR link. *)
From Coq Require Import Permutation.
From Verif Require Import Prelude Table Sco Bredr BredrBase BredrSpec BredrPairSpec BredrRoleSpec BredrRoles BredrWitness BredrPairWitness BredrRoleWitness.
Open Scope N_scope.

Theorem C99_roles_opposite_partial : forall order1 order2 cfg1 cfg2 a b,
  (forall t, Permutation (order1 t) t) -> (forall t, Permutation (order2 t) t) ->
  forall hl hr w0 nl nr w, meanwhile order1 order2 cfg1 cfg2 a b (joined a b) hl hr w0 nl nr w ->
  opposite a b w0 -> agreements a b w0 = 0%nat -> (opposite a b w <-> Nat.even (agreements a b w) = true).
Proof. exact roles_opposite. Qed.
Print Assumptions C99_roles_opposite_partial.

Theorem C99_roles_reported : forall order1 order2 cfg1 cfg2 a b,
  (forall t, Permutation (order1 t) t) -> (forall t, Permutation (order2 t) t) ->
  forall allowed hl hr w0 nl nr w r0, meanwhile order1 order2 cfg1 cfg2 a b (role_steady a b allowed) hl hr w0 nl nr w ->
  role_with b (left w0) = Some r0 -> roles_to_tell b (left w0) = [] ->
  role_with b (left w) = Some (last_role r0 (roles_told b nl ++ roles_to_tell b (left w))).
Proof. exact roles_reported. Qed.
Print Assumptions C99_roles_reported.

Theorem C99_switch_answered : forall order1 order2 cfg1 cfg2 a b,
  (forall t, Permutation (order1 t) t) -> (forall t, Permutation (order2 t) t) ->
  forall allowed hl hr w0 nl nr w, meanwhile order1 order2 cfg1 cfg2 a b (role_steady a b allowed) hl hr w0 nl nr w ->
  role_settled a b w0 -> role_settled a b w ->
  List.length (roles_told b nl) = (switch_commands b nl + (if allowed then switch_requests b nl else 0))%nat.
Proof. exact roles_all_told. Qed.
Print Assumptions C99_switch_answered.

Theorem C99_acceptor_role : forall order cfg, (forall t, Permutation (order t) t) ->
  forall h s now a try s' st out r, history order cfg h s -> step order cfg now s (Command (AcceptConnection a try)) = Ok (s', st, out) ->
  role_with a s = None -> role_with a s' = Some r ->
  exists pg, page_scan s = Some pg /\ scan_peer pg = a /\ (r = CENTRAL <-> try = true /\ scan_allow pg <> 0).
Proof. exact accepted_roles. Qed.
Print Assumptions C99_acceptor_role.

Theorem C99_initiator_role : forall order cfg, (forall t, Permutation (order t) t) ->
  forall h s now rssi p try s' st out r, history order cfg h s -> step order cfg now s (Receive rssi p) = Ok (s', st, out) -> content p = PageResponse try ->
  role_with (source p) s = None -> role_with (source p) s' = Some r ->
  exists pg, page s = Some pg /\ page_peer pg = source p /\ (r = PERIPHERAL <-> try = true /\ page_allow pg <> 0).
Proof. exact paging_roles. Qed.
Print Assumptions C99_initiator_role.

Theorem C99_witness : exists hl hr w0 nl nr w,
  meanwhile same_order same_order some_config your_config me you (role_steady me you false) hl hr w0 nl nr w /\
  role_with you (left w0) = Some CENTRAL /\ role_with me (right w0) = Some PERIPHERAL /\ agreements me you w0 = 0%nat /\ role_settled me you w0 /\
  role_with you (left w) = Some PERIPHERAL /\ role_with me (right w) = Some CENTRAL /\ agreements me you w = 0%nat /\ role_settled me you w /\
  roles_told you nl = [(SUCCESS, PERIPHERAL); (ROLE_SWITCH_FAILED, PERIPHERAL)] /\ switch_commands you nl = 2%nat /\ switch_requests you nl = 1%nat.
Proof. exact roles_witness. Qed.
Print Assumptions C99_witness.

Theorem C99_new_link_witness : exists hl hr w, reaches same_order same_order some_config your_config me you hl hr w /\ role_with you (left w) = None /\ role_with me (right w) = None /\
  exists e1 w1 e2 w2 e4 w4, moves same_order same_order some_config your_config me you w Right e1 w1 /\ what e1 = Command (AcceptConnection me true) /\ role_with me (right w1) = Some CENTRAL /\
  moves same_order same_order some_config your_config me you w1 Right e2 w2 /\ moves same_order same_order some_config your_config me you w2 Left e4 w4 /\ role_with you (left w4) = Some PERIPHERAL.
Proof. exact new_roles_witness. Qed.
Print Assumptions C99_new_link_witness.

Theorem C99_collision_refuted : exists hl hr w, reaches same_order same_order some_config your_config me you hl hr w /\
  way_right you w = [] /\ way_left me w = [] /\ role_with you (left w) = Some PERIPHERAL /\ role_with me (right w) = Some PERIPHERAL.
Proof. exact collision_witness. Qed.
Print Assumptions C99_collision_refuted.
