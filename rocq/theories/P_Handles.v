(** Property theorems C07-C09: connection handles. *)
From Verif Require Import Prelude Handles HandlesSpec HandlesProofs.
Open Scope N_scope.

(** C07: at any time live handles are pairwise distinct. *)
Theorem C07_handles_unique : forall s, reachable s -> NoDup (live s).
Proof. exact live_unique. Qed.
Print Assumptions C07_handles_unique.

(** C07: each lies in the range reserved for its link type. *)
Theorem C07_handles_in_range :
  forall s h c, reachable s -> connection_of s h = Some c -> in_range_of c h.
Proof. exact connection_range. Qed.
Print Assumptions C07_handles_in_range.

(** C07: a creation returns a handle that was not live, which now denotes the
    created connection, and no other handle changes. *)
Theorem C07_creation_fresh :
  forall s o s' r t, reachable s -> is_creation o = true -> step s o = Ok s' r t ->
  exists h, r = RHandle h /\ ~ In h (live s) /\ connection_of s' h = created o /\
    (forall h', h' <> h -> connection_of s' h' = connection_of s h') /\ t = [].
Proof. exact creation_correct. Qed.
Print Assumptions C07_creation_fresh.

(** C07: address lookups return a connection of the right type to that peer,
    and fail only when there is none. *)
Theorem C07_lookups_sound :
  forall s, reachable s ->
  (forall a h, get_acl_handle s a = Some h ->
     exists c, connection_of s h = Some (IsAcl c) /\ acl_peer c = a) /\
  (forall a, get_acl_handle s a = None ->
     forall h c, connection_of s h = Some (IsAcl c) -> acl_peer c <> a) /\
  (forall l r h, get_le_handle s l r = Some h ->
     exists c, connection_of s h = Some (IsLe c) /\ le_peer c = r /\ le_own c = l) /\
  (forall l r, get_le_handle s l r = None ->
     forall h c, connection_of s h = Some (IsLe c) -> ~ (le_peer c = r /\ le_own c = l)).
Proof. exact lookups_sound. Qed.
Print Assumptions C07_lookups_sound.

(** C08, what holds: a creation returns whenever fewer than 256 connections of
    its type are live. Missing: the exhausted range, refuted below. *)
Theorem C08_allocation_terminates_partial :
  forall s o, reachable s -> is_creation o = true -> (live_of_type s o < 256)%nat ->
    exists s' r t, step s o = Ok s' r t.
Proof. exact creation_terminates. Qed.
Print Assumptions C08_allocation_terminates_partial.

(** C08, finding: after 256 ACL creations the next one never returns; the
    search loop exits after no number of turns. *)
Theorem C08_allocation_terminates_refuted :
  exists s, run init (repeat (CreateConnection [1; 2; 3; 4; 5; 6] []) 256) = Some s /\
    (forall fuel, search (acls s) kAclRangeStart kAclRangeEnd fuel (last_acl s) = None).
Proof. exact exhausted_hangs. Qed.
Print Assumptions C08_allocation_terminates_refuted.

(** C09: Disconnect reports success exactly when the handle is live, removes
    it, leaves every other handle alone and stops exactly its stream, provided
    the SCO link of an ACL link is closed first, as the code requires. *)
Theorem C09_disconnect_exact :
  forall s h, reachable s ->
  (forall a, connection_of s h = Some (IsAcl a) ->
     forall h' c, connection_of s h' = Some (IsSco c) -> sco_peer c <> acl_peer a) ->
  exists s' b t, step s (Disconnect h) = Ok s' (RBool b) t /\
    (b = true <-> In h (live s)) /\
    connection_of s' h = None /\
    (forall h', h' <> h -> connection_of s' h' = connection_of s h') /\
    t = match connection_of s h with
        | Some (IsSco c) => match sco_stream c with Some x => [x] | None => [] end
        | _ => []
        end.
Proof. exact disconnect_correct. Qed.
Print Assumptions C09_disconnect_exact.

(** C09: that is the only way a disconnection can abort. *)
Theorem C09_disconnect_abort_exact :
  forall s h, reachable s ->
  (step s (Disconnect h) = Abort <->
   exists a h' c, connection_of s h = Some (IsAcl a) /\ connection_of s h' = Some (IsSco c) /\
     sco_peer c = acl_peer a).
Proof. exact disconnect_abort_only. Qed.
Print Assumptions C09_disconnect_abort_exact.

(** C09: Reset drops every connection and stops every stream. *)
Theorem C09_reset_clears :
  forall s, exists s' t, step s Reset = Ok s' RUnit t /\ live s' = [] /\ t = streams s /\ s' = init.
Proof. exact reset_correct. Qed.
Print Assumptions C09_reset_clears.

(** A history with all three link types meets the hypotheses above. *)
Example C07_nonvacuous :
  match run init [CreateConnection [1] [9]; CreateConnection [2] [9];
                  CreateScoConnection [2] PENDING true false; AcceptPendingSco [2] true 77;
                  CreateLeConnection [3] [9] true; Disconnect 0; CreateConnection [4] [9]] with
  | Some s =>
      live s = [2; 1; 256; 512] /\
      connection_of s 256 = Some (IsSco {| sco_peer := [2]; sco_st := OPENED; sco_spoofed := true;
                                           sco_legacy := false; sco_stream := Some 77 |}) /\
      step s (Disconnect 1) = Abort /\
      (forall a, connection_of s 256 <> Some (IsAcl a))
  | None => False
  end.
Proof. vm_compute. repeat split; intros; discriminate. Qed.
