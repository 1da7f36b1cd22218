(** What a host learns about the device at the other end of a BR/EDR link. *)
From Verif Require Import Prelude Table Sco Bredr BredrBase BredrSpec BredrPairSpec.
Open Scope N_scope.

Section Remote.
Variables (a b : addr).   (* the two controllers *)
Variable k : N.           (* the handle of the link of [a] with [b] *)
Variable cfg2 : config.   (* the properties of the controller [b] *)
Variables (nm : list N) (hf : N). (* the name and the host features of [b] *)

(** The link stays open, the events are enabled, and [b] keeps its name and features *)
Definition ready (w : world) : Prop :=
  (exists c, acl_of b (left w) = Some (k, c)) /\
  (forall code, In code [0x07; 0x0b; 0x0c; 0x1c; 0x23; 0x3d] -> unmasked (left w) code = true) /\
  name (right w) = nm /\ host_features (right w) = hf.

(** The true answers to a command *)
Definition true_answers (c : command) : list event :=
  match c with
  | RemoteName x => if list_eqb x b then [HostFeaturesNotification b hf; RemoteNameComplete SUCCESS b nm] else []
  | ReadSupportedFeatures h => if h =? k then [SupportedFeaturesComplete SUCCESS k (nth 0 (lmp_features cfg2) 0)] else []
  | ReadExtendedFeatures h n =>
      if h =? k then [ExtendedFeaturesComplete SUCCESS k n 2 (if n =? 1 then hf else nth (N.to_nat n) (lmp_features cfg2) 0)] else []
  | ReadVersion h => if h =? k then [VersionComplete SUCCESS k (lmp_version cfg2) (company cfg2) (lmp_subversion cfg2)] else []
  | ReadClockOffset h => if h =? k then [ClockOffsetComplete SUCCESS k 0] else []
  | _ => []
  end.
Definition expected (h : list entry) : list event :=
  flat_map (fun e => match what e with Command c => true_answers c | _ => [] end) (rev h).

(** The answers about [b] *)
Definition is_answer (e : event) : bool :=
  match e with
  | HostFeaturesNotification x _ | RemoteNameComplete _ x _ => list_eqb x b
  | SupportedFeaturesComplete _ h _ | ExtendedFeaturesComplete _ h _ _ _ | VersionComplete _ h _ _ _ | ClockOffsetComplete _ h _ => h =? k
  | _ => false
  end.
Definition answers_in (out : list output) : list event :=
  flat_map (fun o => match o with Event e => if is_answer e then [e] else [] | _ => [] end) out.
Definition told (h : list entry) : list event := flat_map (fun e => answers_in (sent e)) (rev h).

(** No question of [a] and no answer of [b] is under way *)
Definition is_question (p : air) : bool :=
  match content p with
  | NameRequest | FeaturesRequest | LmpFeaturesRequest | ExtendedFeaturesRequest _ | VersionRequest | ClockRequest => true
  | _ => false
  end.
Definition is_reply (p : air) : bool :=
  match content p with
  | NameResponse _ | FeaturesResponse _ | LmpFeaturesResponse _ | ExtendedFeaturesResponse _ _ _ _ | VersionResponse _ _ _ | ClockResponse _ => true
  | _ => false
  end.
Definition settled (w : world) : Prop :=
  (forall p, In p (way_right b w) -> is_question p = false) /\ (forall p, In p (way_left a w) -> is_reply p = false).
End Remote.
