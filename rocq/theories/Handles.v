(** Model of the connection handle manager.
    Sources: model/controller/acl_connection_handler.{h,cc},
    model/controller/connection_handle.h, and the stream life cycle of
    model/controller/sco_connection.{h,cc}.
    The unordered maps are association lists with an arbitrary order; the only
    connection fields kept are the addresses (they drive the lookups) and, for
    SCO, the state, the data path and the stream task. *)
From Verif Require Import Prelude.
Open Scope N_scope.

(** model/controller/connection_handle.h:41-54 *)
Definition kAclRangeStart : N := 0.
Definition kAclRangeEnd : N := 255.
Definition kScoRangeStart : N := 256.
Definition kScoRangeEnd : N := 511.
Definition kLeAclRangeStart : N := 512.
Definition kLeAclRangeEnd : N := 767.

(** std::unordered_map<uint16_t, C> *)
Definition table (C : Type) := list (N * C).

Definition has {C} (m : table C) (h : N) : bool := existsb (fun e => fst e =? h) m.

Definition erase {C} (m : table C) (h : N) : table C := filter (fun e => negb (fst e =? h)) m.

Fixpoint lookup {C} (m : table C) (h : N) : option C :=
  match m with
  | [] => None
  | (k, c) :: m' => if k =? h then Some c else lookup m' h
  end.

Definition keys {C} (m : table C) : list N := map fst m.

(** ++last, wrapping at the end of the range (acl_connection_handler.cc:43-45
    and 49-51). uint16_t cannot overflow: every range ends below 0x1000. *)
Definition next_handle (range_start range_end last : N) : N :=
  if range_end <? last + 1 then range_start else last + 1.

(** acl_connection_handler.cc:42-46, the search loop; [None] when [fuel]
    iterations were not enough. *)
Fixpoint search {C} (m : table C) (range_start range_end : N) (fuel : nat) (last : N) : option N :=
  match fuel with
  | O => None
  | S f => if has m last then search m range_start range_end f (next_handle range_start range_end last)
           else Some last
  end.

(** acl_connection_handler.cc:39-54: the handle and the new value of [last].
    256 iterations visit the whole range once, so [None] means that the loop
    never exits (proved in HandlesProofs.v). *)
Definition get_unused_handle {C} (m : table C) (range_start range_end last : N) : option (N * N) :=
  match search m range_start range_end 256 last with
  | None => None
  | Some h => Some (h, next_handle range_start range_end h)
  end.

Record acl := { acl_peer : list N; acl_own : list N }.
(** le_acl_connection.h, the fields used by the lookup *)
Record le_acl := { le_peer : list N; le_own : list N; le_central : bool }.

(** sco_connection.h:71-77 *)
Inductive sco_state := CLOSED | PENDING | SENT_ESCO | SENT_SCO | OPENED.

(** sco_connection.h:84-142 *)
Record sco := {
  sco_peer : list N; sco_st : sco_state; sco_spoofed : bool; sco_legacy : bool;
  sco_stream : option N
}.

(** acl_connection_handler.h:103-109 *)
Record handler := {
  acls : table acl; les : table le_acl; scos : table sco;
  last_acl : N; last_le : N; last_sco : N
}.

Definition init : handler :=
  {| acls := []; les := []; scos := [];
     last_acl := kAclRangeStart; last_le := kLeAclRangeStart; last_sco := kScoRangeStart |}.

(** What a call returns: a handle, a boolean, nothing; plus the stream tasks
    passed to stopStream. An ASSERT failure and a call that never returns are
    distinct outcomes. *)
Inductive ret := RHandle (h : N) | RBool (b : bool) | RUnit.
Inductive outcome :=
| Ok (h : handler) (r : ret) (stopped : list N)
| Abort
| Hang.

(** acl_connection_handler.cc:83-89 *)
Definition create_connection (s : handler) (addr own : list N) : outcome :=
  match get_unused_handle (acls s) kAclRangeStart kAclRangeEnd (last_acl s) with
  | None => Hang
  | Some (h, last) =>
      Ok {| acls := (h, {| acl_peer := addr; acl_own := own |}) :: acls s;
            les := les s; scos := scos s;
            last_acl := last; last_le := last_le s; last_sco := last_sco s |} (RHandle h) []
  end.

(** acl_connection_handler.cc:91-102 *)
Definition create_le_connection (s : handler) (addr own : list N) (central : bool) : outcome :=
  match get_unused_handle (les s) kLeAclRangeStart kLeAclRangeEnd (last_le s) with
  | None => Hang
  | Some (h, last) =>
      Ok {| acls := acls s;
            les := (h, {| le_peer := addr; le_own := own; le_central := central |}) :: les s;
            scos := scos s;
            last_acl := last_acl s; last_le := last; last_sco := last_sco s |} (RHandle h) []
  end.

(** acl_connection_handler.cc:171-177; the C++ function returns nothing, the
    handle is shown for the statements. *)
Definition create_sco_connection (s : handler) (addr : list N) (st : sco_state)
  (spoofed legacy : bool) : outcome :=
  match get_unused_handle (scos s) kScoRangeStart kScoRangeEnd (last_sco s) with
  | None => Hang
  | Some (h, last) =>
      Ok {| acls := acls s; les := les s;
            scos := (h, {| sco_peer := addr; sco_st := st; sco_spoofed := spoofed;
                           sco_legacy := legacy; sco_stream := None |}) :: scos s;
            last_acl := last_acl s; last_le := last_le s; last_sco := last |} (RHandle h) []
  end.

(** sco_connection.cc:299-304: the tasks stopped *)
Definition stop_stream (c : sco) : list N :=
  match sco_stream c with Some t => [t] | None => [] end.

(** acl_connection_handler.cc:125-154: first match in iteration order *)
Fixpoint find_key {C} (p : C -> bool) (m : table C) : option N :=
  match m with
  | [] => None
  | (k, c) :: m' => if p c then Some k else find_key p m'
  end.
Definition get_acl_handle (s : handler) (addr : list N) : option N :=
  find_key (fun c => list_eqb (acl_peer c) addr) (acls s).
Definition get_le_handle (s : handler) (local remote : list N) : option N :=
  find_key (fun c => list_eqb (le_peer c) remote && list_eqb (le_own c) local) (les s).
Definition get_sco_handle (s : handler) (addr : list N) : option N :=
  find_key (fun c => list_eqb (sco_peer c) addr) (scos s).

(** acl_connection_handler.cc:104-123 *)
Definition disconnect (s : handler) (h : N) : outcome :=
  match lookup (scos s) h with
  | Some c =>
      Ok {| acls := acls s; les := les s; scos := erase (scos s) h;
            last_acl := last_acl s; last_le := last_le s; last_sco := last_sco s |}
         (RBool true) (stop_stream c)
  | None =>
      match lookup (acls s) h with
      | Some a =>
          match get_sco_handle s (acl_peer a) with
          | Some _ => Abort
          | None =>
              Ok {| acls := erase (acls s) h; les := les s; scos := scos s;
                    last_acl := last_acl s; last_le := last_le s; last_sco := last_sco s |}
                 (RBool true) []
          end
      | None =>
          if has (les s) h then
            Ok {| acls := acls s; les := erase (les s) h; scos := scos s;
                  last_acl := last_acl s; last_le := last_le s; last_sco := last_sco s |}
               (RBool true) []
          else Ok s (RBool false) []
      end
  end.

(** acl_connection_handler.cc:208-215: erases the first connection with that
    peer; ~ScoConnection (sco_connection.cc:31) asserts that its stream is
    stopped. *)
Definition cancel_pending_sco (s : handler) (addr : list N) : outcome :=
  match get_sco_handle s addr with
  | None => Ok s RUnit []
  | Some h =>
      match lookup (scos s) h with
      | None => Ok s RUnit []
      | Some c =>
          match sco_stream c with
          | Some _ => Abort
          | None =>
              Ok {| acls := acls s; les := les s; scos := erase (scos s) h;
                    last_acl := last_acl s; last_le := last_le s; last_sco := last_sco s |} RUnit []
          end
      end
  end.

Fixpoint update {C} (m : table C) (h : N) (c : C) : table C :=
  match m with
  | [] => []
  | (k, x) :: m' => if k =? h then (k, c) :: m' else (k, x) :: update m' h c
  end.

(** acl_connection_handler.cc:217-246 (both overloads): [negotiated] is the
    result of NegotiateLinkParameters, true for the first overload; [task] is
    the identifier startStream returns. sco_connection.cc:292-297 asserts that
    no stream is running, and starts one only for the spoofed data path. *)
Definition accept_pending_sco (s : handler) (addr : list N) (negotiated : bool) (task : N) : outcome :=
  match get_sco_handle s addr with
  | None => Ok s (RBool false) []
  | Some h =>
      match lookup (scos s) h with
      | None => Ok s (RBool false) []
      | Some c =>
          if negotiated then
            match sco_stream c with
            | Some _ => Abort
            | None =>
                Ok {| acls := acls s; les := les s;
                      scos := update (scos s) h
                        {| sco_peer := sco_peer c; sco_st := OPENED; sco_spoofed := sco_spoofed c;
                           sco_legacy := sco_legacy c;
                           sco_stream := if sco_spoofed c then Some task else None |};
                      last_acl := last_acl s; last_le := last_le s; last_sco := last_sco s |}
                   (RBool true) []
            end
          else
            Ok {| acls := acls s; les := les s;
                  scos := update (scos s) h
                    {| sco_peer := sco_peer c; sco_st := CLOSED; sco_spoofed := sco_spoofed c;
                       sco_legacy := sco_legacy c; sco_stream := sco_stream c |};
                  last_acl := last_acl s; last_le := last_le s; last_sco := last_sco s |}
               (RBool false) []
      end
  end.

(** acl_connection_handler.cc:56-69 *)
Definition reset (s : handler) : outcome :=
  Ok init RUnit (flat_map (fun e => stop_stream (snd e)) (scos s)).

Inductive op :=
| CreateConnection (addr own : list N)
| CreateLeConnection (addr own : list N) (central : bool)
| CreateScoConnection (addr : list N) (st : sco_state) (spoofed legacy : bool)
| Disconnect (h : N)
| CancelPendingSco (addr : list N)
| AcceptPendingSco (addr : list N) (negotiated : bool) (task : N)
| Reset.

Definition step (s : handler) (o : op) : outcome :=
  match o with
  | CreateConnection a w => create_connection s a w
  | CreateLeConnection a w c => create_le_connection s a w c
  | CreateScoConnection a st sp lg => create_sco_connection s a st sp lg
  | Disconnect h => disconnect s h
  | CancelPendingSco a => cancel_pending_sco s a
  | AcceptPendingSco a n t => accept_pending_sco s a n t
  | Reset => reset s
  end.

(** A history of calls; [None] as soon as one aborts or never returns. *)
Fixpoint run (s : handler) (ops : list op) : option handler :=
  match ops with
  | [] => Some s
  | o :: ops' => match step s o with Ok s' _ _ => run s' ops' | _ => None end
  end.
