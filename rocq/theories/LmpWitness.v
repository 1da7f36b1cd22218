(** Two link managers that talk to each other, and histories in which one crashes or stops. *)
From Verif Require Import Prelude Ec EcWitness Lmp LmpSpec LmpManager LmpLive LmpSafe.
Open Scope N_scope.

(** * Two managers *)

(** every private key is 2 *)
Definition two (_ : nat) : list N := 2 :: repeat 0 31.

Definition Alice : address := 11.
Definition Bob : address := 22.

(** the peer has the handle 7; [p1] and [p2] are the features of pages 1 and 2 *)
Definition sees (p1 p2 : N) (other : address) : env :=
  Env (fun _ => 7) (fun h => if h =? 7 then other else EMPTY)
    (fun page => if page <=? 2 then Some (if page =? 1 then p1 else if page =? 2 then p2 else 0) else None).

Definition all_said (l : list entry) : list event := flat_map (fun x => match what x with Said v => [v] | _ => [] end) l.
Definition all_sent (l : list entry) : list packet := flat_map (fun x => match what x with Sent v => [v] | _ => [] end) l.

(** A host: its parameters, and whether it agrees with the numbers it is shown. *)
Record host := Host { offers : params; agrees : bool }.

Definition replies (u : host) (other : address) (v : event) : list command :=
  match v with
  | LinkKeyRequest _ => [LinkKeyNegative other]
  | IoCapabilityRequest _ => [IoReply other (offers u)]
  | UserConfirmationRequest _ _ => [if agrees u then ConfirmationReply other else ConfirmationNegative other]
  | UserPasskeyRequest _ => [PasskeyReply other 0]
  | RemoteOobDataRequest _ => [if agrees u then OobReply other else OobNegative other]
  | PinCodeRequest _ => [PinReply other]
  | AuthenticationComplete 0 h => [SetConnectionEncryption h true]
  | _ => []
  end.

(** what reaches a manager in one round: commands of its host, packets of the peer *)
Definition round (u : host) (e : env) (other : address) (own theirs : list entry) : list (env * op) :=
  map (fun c => (e, IngestHci c)) (flat_map (replies u other) (all_said own)) ++
  map (fun p => (e, IngestLmp other p)) (all_sent theirs) ++ [(e, Tick)].

Fixpoint talk (rounds : nat) (ua ub : host) (ea eb : env) (ma mb : manager) (ha hb : list (env * op)) (la lb : list entry)
  : list (env * op) * list (env * op) :=
  match rounds with
  | O => (ha, hb)
  | S n =>
      let oa := round ua ea Bob la lb in
      match run two ma oa with
      | Ok (ma, la) =>
          let ob := round ub eb Alice lb la in
          match run two mb ob with
          | Ok (mb, lb) => talk n ua ub ea eb ma mb (ha ++ oa) (hb ++ ob) la lb
          | _ => (ha, hb)
          end
      | _ => (ha, hb)
      end
  end.

(** The host of Alice asks for an authentication of Bob, and then for encryption: the histories of
    both link managers after their links are added. *)
Definition meeting (rounds : nat) (ua ub : host) (p1 p2 : N) : list (env * op) * list (env * op) :=
  let ea := sees p1 p2 Bob in
  let eb := sees p1 p2 Alice in
  let begin := [(ea, IngestHci (AuthenticationRequested 7)); (ea, Tick)] in
  match run two (new_manager 0) ((ea, AddLink Bob) :: begin), run two (new_manager 0) [(eb, AddLink Alice)] with
  | Ok (ma, la), Ok (mb, lb) => talk rounds ua ub ea eb ma mb begin [] la lb
  | _, _ => ([], [])
  end.

Definition log_of (e : env) (a : address) (h : list (env * op)) : list entry :=
  match run two (new_manager 0) ((e, AddLink a) :: h) with Ok (_, l) => l | _ => [] end.

(** a check for [in_session] *)
Definition op_stays (a : address) (o : op) : bool :=
  match o with RemoveLink b | AddLink b => negb (b =? a) | Reset => false | _ => true end.

Fixpoint orderly_b (l : list address) (h : list (env * op)) : bool :=
  match h with
  | [] => true
  | (e, o) :: h =>
      match o with
      | AddLink a => negb (a =? EMPTY) && negb (existsb (N.eqb a) l)
      | IngestHci c => match target e c with Some b => negb (b =? EMPTY) | None => true end
      | IngestLmp a _ => negb (a =? EMPTY)
      | RemoveLink a => negb (a =? EMPTY)
      | _ => true
      end && orderly_b (linked [(e, o)] l) h
  end.

Lemma orderly_checked h : forall l, orderly_b l h = true -> orderly l h.
Proof.
  induction h as [|[e o] h IH]; intros l E; cbn [orderly orderly_b] in *; [exact Logic.I|].
  apply andb_true_iff in E as (E1 & E2). split; [|apply IH; exact E2].
  destruct o; auto.
  - intros T. rewrite T in E1. cbn in E1. discriminate.
  - intros ->. discriminate.
  - apply andb_true_iff in E1 as (A & B). split; [intros ->; discriminate|]. intros I.
    rewrite (proj2 (existsb_exists (N.eqb a) l)) in B; [discriminate|]. exists a. split; [exact I|apply N.eqb_refl].
  - intros ->. discriminate.
Qed.

Lemma session_checked e a h :
  orderly_b [] ((e, AddLink a) :: h) = true -> forallb (fun x => op_stays a (snd x)) h = true ->
  (match run two (new_manager 0) ((e, AddLink a) :: h) with Ok _ => true | _ => false end) = true ->
  in_session two 0 [] e a h (log_of e a h).
Proof.
  intros O S R. unfold in_session, log_of. destruct (run two (new_manager 0) ((e, AddLink a) :: h)) as [[m l]| | |] eqn:E;
    try discriminate R.
  exists (new_manager 0), [], m. split; [reflexivity|]. split; [apply orderly_checked; exact O|]. split; [|exact E].
  intros e1 o1 I. rewrite forallb_forall in S. specialize (S _ I). cbn [snd] in S. destruct o1; cbn in S;
    (split; [|split]); try discriminate; intros X; injection X as ->; rewrite N.eqb_refl in S; discriminate.
Qed.

(** * Meetings *)

Definition careful_user := Host (Params DisplayYesNo NotPresent GeneralBondingMitm) true.
Definition refusing_user := Host (Params DisplayYesNo NotPresent GeneralBondingMitm) false.
Definition keyboard_user := Host (Params KeyboardOnly NotPresent GeneralBondingMitm) true.
Definition carrying_user := Host (Params DisplayYesNo P192Present NoBonding) true.
Definition doubtful_user := Host (Params DisplayYesNo P192Present NoBonding) false.

Ltac meets := apply session_checked; vm_compute; reflexivity.

(** Secure connections, numeric comparison, encryption with AES-CCM. *)
Definition secure := meeting 40 careful_user careful_user 9 0x100.

Lemma secure_case :
  in_session two 0 [] (sees 9 0x100 Bob) Bob (fst secure) (log_of (sees 9 0x100 Bob) Bob (fst secure)) /\
  in_session two 0 [] (sees 9 0x100 Alice) Alice (snd secure) (log_of (sees 9 0x100 Alice) Alice (snd secure)) /\
  told (log_of (sees 9 0x100 Bob) Bob (fst secure)) =
    [Status kAuthenticationRequested 0; LinkKeyRequest Bob; Complete kLinkKeyNegative 0 Bob;
     IoCapabilityRequest Bob; Complete kIoReply 0 Bob; IoCapabilityResponse Bob (offers careful_user);
     UserConfirmationRequest Bob 27; Complete kConfirmationReply 0 Bob; SimplePairingComplete 0 Bob;
     LinkKeyNotification Bob AuthenticatedP256 (repeat 1 16); AuthenticationComplete 0 7;
     Status kSetConnectionEncryption 0; EncryptionChange 0 7 true] /\
  told (log_of (sees 9 0x100 Alice) Alice (snd secure)) =
    [IoCapabilityResponse Alice (offers careful_user); IoCapabilityRequest Alice; Complete kIoReply 0 Alice;
     UserConfirmationRequest Alice 27; Complete kConfirmationReply 0 Alice; SimplePairingComplete 0 Alice;
     LinkKeyNotification Alice AuthenticatedP256 (repeat 1 16); EncryptionChange 0 7 true].
Proof. split; [meets|]. split; [meets|]. split; vm_compute; reflexivity. Qed.

(** The host of Alice says that the numbers differ. *)
Definition refused := meeting 30 refusing_user careful_user 9 0x100.

Lemma refused_case :
  in_session two 0 [] (sees 9 0x100 Bob) Bob (fst refused) (log_of (sees 9 0x100 Bob) Bob (fst refused)) /\
  in_session two 0 [] (sees 9 0x100 Alice) Alice (snd refused) (log_of (sees 9 0x100 Alice) Alice (snd refused)) /\
  skipn 6 (told (log_of (sees 9 0x100 Bob) Bob (fst refused))) =
    [UserConfirmationRequest Bob 27; Complete kConfirmationNegative 0 Bob; SimplePairingComplete AUTHENTICATION_FAILURE Bob;
     AuthenticationComplete AUTHENTICATION_FAILURE 7] /\
  skipn 3 (told (log_of (sees 9 0x100 Alice) Alice (snd refused))) =
    [UserConfirmationRequest Alice 27; Complete kConfirmationReply 0 Alice; SimplePairingComplete AUTHENTICATION_FAILURE Alice].
Proof. split; [meets|]. split; [meets|]. split; vm_compute; reflexivity. Qed.

(** The old curve, a passkey typed on one side. *)
Definition typed := meeting 80 keyboard_user careful_user 1 0.

Lemma typed_case :
  in_session two 0 [] (sees 1 0 Bob) Bob (fst typed) (log_of (sees 1 0 Bob) Bob (fst typed)) /\
  in_session two 0 [] (sees 1 0 Alice) Alice (snd typed) (log_of (sees 1 0 Alice) Alice (snd typed)) /\
  skipn 6 (told (log_of (sees 1 0 Bob) Bob (fst typed))) =
    [UserPasskeyRequest Bob; Complete kPasskeyReply 0 Bob; SimplePairingComplete 0 Bob;
     LinkKeyNotification Bob AuthenticatedP192 (repeat 1 16); AuthenticationComplete 0 7;
     Status kSetConnectionEncryption 0; EncryptionChange 0 7 false] /\
  skipn 3 (told (log_of (sees 1 0 Alice) Alice (snd typed))) =
    [UserPasskeyNotification Alice 0; SimplePairingComplete 0 Alice;
     LinkKeyNotification Alice AuthenticatedP192 (repeat 1 16); EncryptionChange 0 7 false].
Proof. split; [meets|]. split; [meets|]. split; vm_compute; reflexivity. Qed.

(** No simple pairing: a PIN on both sides. *)
Definition legacy := meeting 30 careful_user careful_user 0 0.

Lemma legacy_case :
  in_session two 0 [] (sees 0 0 Bob) Bob (fst legacy) (log_of (sees 0 0 Bob) Bob (fst legacy)) /\
  in_session two 0 [] (sees 0 0 Alice) Alice (snd legacy) (log_of (sees 0 0 Alice) Alice (snd legacy)) /\
  skipn 3 (told (log_of (sees 0 0 Bob) Bob (fst legacy))) =
    [PinCodeRequest Bob; Complete kPinReply 0 Bob; LinkKeyNotification Bob Combination (repeat 1 16);
     AuthenticationComplete 0 7; Status kSetConnectionEncryption 0; EncryptionChange 0 7 false] /\
  told (log_of (sees 0 0 Alice) Alice (snd legacy)) =
    [PinCodeRequest Alice; Complete kPinReply 0 Alice; LinkKeyNotification Alice Combination (repeat 1 16);
     EncryptionChange 0 7 false].
Proof. split; [meets|]. split; [meets|]. split; vm_compute; reflexivity. Qed.

(** Data carried out of band: the host of Bob has none for Alice and says so, and is told that the
    pairing succeeded. *)
Definition carried := meeting 30 carrying_user doubtful_user 1 0.

Lemma carried_case :
  in_session two 0 [] (sees 1 0 Alice) Alice (snd carried) (log_of (sees 1 0 Alice) Alice (snd carried)) /\
  skipn 3 (told (log_of (sees 1 0 Alice) Alice (snd carried))) =
    [RemoteOobDataRequest Alice; Complete kOobNegative 0 Alice; SimplePairingComplete 0 Alice;
     LinkKeyNotification Alice AuthenticatedP192 (repeat 1 16); EncryptionChange 0 7 false].
Proof. split; [meets|]. vm_compute; reflexivity. Qed.

(** * Commands that are never answered *)

(** The host refuses to give a PIN. *)
Definition before_pin : list (env * op) :=
  let e := sees 0 0 Bob in
  [(e, IngestHci (AuthenticationRequested 7)); (e, Tick); (e, IngestHci (LinkKeyNegative Bob)); (e, Tick)].

Definition no_pin (ticks : nat) : list (env * op) :=
  before_pin ++ (sees 0 0 Bob, IngestHci (PinNegative Bob)) :: repeat (sees 0 0 Bob, Tick) ticks.

Lemma no_pin_case :
  in_session two 0 [] (sees 0 0 Bob) Bob (no_pin 3) (log_of (sees 0 0 Bob) Bob (no_pin 3)) /\
  told (log_of (sees 0 0 Bob) Bob (no_pin 3)) =
    [Status kAuthenticationRequested 0; LinkKeyRequest Bob; Complete kLinkKeyNegative 0 Bob; PinCodeRequest Bob].
Proof. split; [meets|]. vm_compute; reflexivity. Qed.

(** a check for [considerate] and [peaceful] *)
Definition acceptable_b (p : packet) : bool :=
  match p with
  | IoCapabilityReq x y z | IoCapabilityRes x y z => (x <=? 3) && (y <=? 3) && (z <=? 5)
  | EncapsulatedHeader n => (n =? 48) || (n =? 64)
  | SimplePairingConfirm v => list_eqb v (repeat 0 16)
  | FeaturesReqExt page _ => page <=? 2
  | _ => true
  end.

Definition kinds_eqb (x y : list kind) : bool :=
  (List.length x =? List.length y)%nat && forallb (fun p => kind_eqb (fst p) (snd p)) (combine x y).

Definition considerate_b (h : list (env * op)) (l : list entry) (e : env) (o : op) : bool :=
  forallb (fun page => match features e page with Some _ => true | None => false end) [0; 1; 2] &&
  match o with
  | IngestHci c =>
      match c with OobExtendedReply _ => false | _ => true end &&
      match target e c with Some a => kinds_eqb (given a h) (answered a l) | None => true end
  | IngestLmp _ p => acceptable_b p
  | AddLink _ => (List.length (linked h []) <? 7)%nat
  | RemoveLink a => existsb (N.eqb a) (linked h [])
  | Tick => true
  | Reset => false
  end.

Lemma kinds_checked : forall x y, kinds_eqb x y = true -> x = y.
Proof.
  induction x as [|k x IH]; intros [|k' y] E; try reflexivity; try discriminate. unfold kinds_eqb in *. cbn in E.
  apply andb_true_iff in E as (E1 & E2). apply andb_true_iff in E2 as (E2 & E3). f_equal.
  - destruct k, k'; try discriminate; reflexivity.
  - apply IH. rewrite E1, E3. reflexivity.
Qed.

Lemma considerate_checked h l e o : considerate_b h l e o = true -> considerate h l e o.
Proof.
  intros E. apply andb_true_iff in E as (E1 & E2). split.
  - intros page L. rewrite forallb_forall in E1. intros N. specialize (E1 page). rewrite N in E1.
    assert (In page [0; 1; 2]) by (cbn; lia). specialize (E1 H). discriminate.
  - destruct o; auto.
    + apply andb_true_iff in E2 as (E2 & E3). split; [intros a ->; discriminate|]. intros a T _. rewrite T in E3.
      apply kinds_checked. exact E3.
    + unfold acceptable_b in E2. destruct p; cbn; auto.
      all: first [apply list_eqb_eq; exact E2 | apply orb_true_iff in E2; lia | lia].
    + apply Nat.ltb_lt. exact E2.
    + apply existsb_exists in E2 as (b & I & B). apply N.eqb_eq in B. subst b. exact I.
    + discriminate.
Qed.

Fixpoint calm (rng : nat -> list N) (m : manager) (h1 : list (env * op)) (l : list entry) (h : list (env * op)) : bool :=
  match h with
  | [] => true
  | (e, o) :: h =>
      considerate_b h1 l e o &&
      match step rng e m o with Ok (m, l2) => calm rng m (h1 ++ [(e, o)]) (l ++ l2) h | _ => false end
  end.

Lemma calm_checked rng n : forall h m h0 l0, run rng (new_manager n) h0 = Ok (m, l0) -> calm rng m h0 l0 h = true ->
  forall h1 e o h2 m l, h = h1 ++ (e, o) :: h2 -> run rng (new_manager n) (h0 ++ h1) = Ok (m, l) -> considerate (h0 ++ h1) l e o.
Proof.
  induction h as [|[e0 o0] h IH]; intros m h0 l0 R C h1 e o h2 m1 l1 EQ R1; [destruct h1; discriminate|].
  cbn [calm] in C. apply andb_true_iff in C as (C1 & C2). destruct h1 as [|x h1].
  - injection EQ as <- <- <-. rewrite app_nil_r in *. rewrite R in R1. injection R1 as <- <-. apply considerate_checked. exact C1.
  - injection EQ as <- ->. destruct (step rng e0 m o0) as [[m2 l2]| | |] eqn:S; try discriminate.
    assert (A : h0 ++ (e0, o0) :: h1 = (h0 ++ [(e0, o0)]) ++ h1) by (rewrite <- app_assoc; reflexivity).
    rewrite A in *. refine (IH m2 (h0 ++ [(e0, o0)]) (l0 ++ l2) _ C2 h1 e o h2 m1 l1 eq_refl R1).
    rewrite run_app, R. cbn [bind fst snd run]. rewrite S. cbn [bind fst snd]. rewrite app_nil_r. reflexivity.
Qed.

(** lists of pieces *)
Fixpoint tuples (n : nat) (l : list (list N)) : list (list (list N)) :=
  match n with O => [[]] | S n => flat_map (fun x => map (cons x) (tuples n l)) l end.

Lemma tuples_in l : forall x, incl x l -> In x (tuples (List.length x) l).
Proof.
  induction x as [|y x IH]; intros I; cbn [tuples List.length]; [left; reflexivity|].
  apply in_flat_map. exists y. split; [apply I; left; reflexivity|]. apply in_map. apply IH. intros z Z. apply I. right. exact Z.
Qed.

Definition keys_b (pieces : list (list N)) : bool :=
  forallb (fun c => forallb (fun l => match shared_secret c (draw c 2) (concat l) with Some _ => true | None => false end)
    (tuples 3 pieces ++ tuples 4 pieces)) [P192; P256].

Lemma keys_checked pieces : keys_b pieces = true -> keys_work two pieces.
Proof.
  intros K n c. exists (draw c 2), (public_of c 2).
  split; [destruct c; vm_compute; reflexivity|]. split; [destruct c; vm_compute; reflexivity|].
  intros l I L N. unfold keys_b in K. rewrite forallb_forall in K.
  assert (IC : In c [P192; P256]) by (destruct c; cbn; auto). specialize (K c IC). rewrite forallb_forall in K.
  assert (IL : In l (tuples 3 pieces ++ tuples 4 pieces)).
  { apply in_or_app. pose proof (tuples_in pieces l I) as T. destruct L as [L|L]; rewrite L in T; auto. }
  specialize (K l IL). rewrite N in K. discriminate.
Qed.

Lemma peace_checked h : orderly_b [] h = true -> keys_b (payloads h) = true -> calm two (new_manager 0) [] [] h = true ->
  peaceful two 0 h.
Proof.
  intros O K C. split; [apply orderly_checked; exact O|]. split; [apply keys_checked; exact K|].
  intros h1 e o h2 m l E R. exact (calm_checked two 0 h _ [] [] eq_refl C h1 e o h2 m l E R).
Qed.

Lemma calm_ticks rng n e : (forall page, page <= 2 -> features e page <> None) -> forall k h,
  (forall h1 e o h2 m l, h = h1 ++ (e, o) :: h2 -> run rng (new_manager n) h1 = Ok (m, l) -> considerate h1 l e o) ->
  forall h1 e0 o h2 m l, h ++ repeat (e, Tick) k = h1 ++ (e0, o) :: h2 -> run rng (new_manager n) h1 = Ok (m, l) -> considerate h1 l e0 o.
Proof.
  intros F k h C h1 e0 o h2 m l E R.
  apply app_eq_app in E as (x & [[E1 E2]|[E1 E2]]).
  - destruct x as [|y x].
    + rewrite app_nil_r in E1. subst h1. cbn [app] in E2. destruct k; [discriminate|]. injection E2 as -> -> _. split; [exact F|exact Logic.I].
    + injection E2 as <- _. exact (C h1 e0 o x m l E1 R).
  - assert (I : In (e0, o) (repeat (e, Tick) k)) by (rewrite E2; apply in_or_app; right; left; reflexivity).
    apply repeat_spec in I. injection I as -> ->. split; [exact F|exact Logic.I].
Qed.

Lemma no_pin_peace ticks : peaceful two 0 ((sees 0 0 Bob, AddLink Bob) :: no_pin ticks).
Proof.
  assert (P : peaceful two 0 ((sees 0 0 Bob, AddLink Bob) :: no_pin 0)) by (apply peace_checked; vm_compute; reflexivity).
  destruct P as (O & K & C).
  assert (A : (sees 0 0 Bob, AddLink Bob) :: no_pin ticks =
              ((sees 0 0 Bob, AddLink Bob) :: no_pin 0) ++ repeat (sees 0 0 Bob, Tick) ticks) by reflexivity.
  split; [|split].
  - apply orderly_checked. clear. unfold no_pin. cbn. induction ticks as [|n IH]; [reflexivity|]. exact IH.
  - assert (Z : payloads ((sees 0 0 Bob, AddLink Bob) :: no_pin ticks) = []).
    { clear. unfold no_pin. cbn. induction ticks as [|n IH]; [reflexivity|]. exact IH. }
    rewrite Z. apply keys_checked. vm_compute. reflexivity.
  - rewrite A. apply calm_ticks; [|exact C]. intros page L. cbn. rewrite (proj2 (N.leb_le page 2) L). discriminate.
Qed.

Lemma no_pin_given n : given Bob (no_pin n) = [kAuthenticationRequested; kLinkKeyNegative; kPinNegative].
Proof. unfold no_pin. cbn. do 3 f_equal. induction n as [|n IH]; [reflexivity|exact IH]. Qed.

Lemma no_pin_refuted : forall ticks, exists l,
  in_session two 0 [] (sees 0 0 Bob) Bob (no_pin ticks) l /\
  In (PinCodeRequest Bob) (told l) /\ given Bob (no_pin ticks) = answered Bob l ++ [kPinNegative].
Proof.
  intros ticks. destruct (peace_kept two 0 _ (no_pin_peace ticks)) as (m & l & R). exists l.
  assert (S : in_session two 0 [] (sees 0 0 Bob) Bob (no_pin ticks) l).
  { exists (new_manager 0), [], m. split; [reflexivity|]. split; [apply (proj1 (no_pin_peace ticks))|]. split; [|exact R].
    intros e o I. unfold no_pin in I. apply in_app_or in I as [I|[I|I]].
    + cbn in I. repeat destruct I as [I|I]; try contradiction; injection I as <- <-; repeat split; discriminate.
    + injection I as <- <-. repeat split; discriminate.
    + apply repeat_spec in I. injection I as -> ->. repeat split; discriminate. }
  split; [exact S|]. split.
  - change ((sees 0 0 Bob, AddLink Bob) :: no_pin ticks) with
      (((sees 0 0 Bob, AddLink Bob) :: no_pin 0) ++ repeat (sees 0 0 Bob, Tick) ticks) in R.
    rewrite run_app in R.
    assert (X : match run two (new_manager 0) ((sees 0 0 Bob, AddLink Bob) :: no_pin 0) with
                | Ok (_, l) => existsb (fun v => match v with PinCodeRequest b => b =? Bob | _ => false end) (told l) | _ => false end = true)
      by (vm_compute; reflexivity).
    destruct (run two (new_manager 0) ((sees 0 0 Bob, AddLink Bob) :: no_pin 0)) as [[m1 l1]| | |]; try discriminate.
    cbn [bind fst snd] in R. destruct (run two m1 (repeat (sees 0 0 Bob, Tick) ticks)) as [[m2 l2]| | |]; try discriminate.
    cbn [bind fst snd] in R. injection R as _ <-.
    apply existsb_exists in X as (v & I & V).
    assert (v = PinCodeRequest Bob).
    { destruct v; try discriminate V. apply N.eqb_eq in V. congruence. }
    subst v. clear -I. induction l1 as [|[b w x] l1 IH]; [destruct I|]. cbn [app told] in *.
    destruct x; auto. destruct I as [I|I]; [left; exact I|right; auto].
  - assert (S' := S). unfold no_pin in S'. destruct (never_answered two 0 [] (sees 0 0 Bob) Bob _ _ _ _ S') as (N & _).
    destruct (answered_in_order two 0 _ _ _ Bob R (proj1 (no_pin_peace ticks))) as (rest & G & L).
    + intros e [I|I]; [discriminate|]. unfold no_pin in I. apply in_app_or in I as [I|[I|I]].
      * cbn in I. repeat destruct I as [I|I]; try contradiction; discriminate.
      * discriminate.
      * apply repeat_spec in I. discriminate.
    + discriminate.
    + cbn [given] in G. rewrite no_pin_given in G |- *.
      destruct (answered Bob l) as [|x [|y [|z t]]]; destruct rest as [|r [|r2 rest]]; cbn in G, L; try discriminate G; try lia.
      * injection G as <- <- <-. reflexivity.
      * exfalso. apply N. injection G as _ _ <- _. cbn. auto.
      * exfalso. apply N. injection G as _ _ <- _. cbn. auto.
Qed.

(** A command for the address zero waits in a slot without a link, and the next one ends the
    program. *)
Lemma zero_address_refuted :
  let e := sees 0 0 Bob in
  match run two (new_manager 0) [(e, AddLink Bob); (e, IngestHci (PinReply EMPTY)); (e, Tick); (e, Tick)] with
  | Ok (_, l) => l = []
  | _ => False
  end /\
  run two (new_manager 0) [(e, IngestHci (PinReply EMPTY)); (e, Tick); (e, IngestHci (PinReply EMPTY))] = Abort.
Proof. cbn zeta. split; vm_compute; reflexivity. Qed.

(** * Crashes *)

Section Crashes.
Let e := sees 1 0 Bob.
Let hci (c : command) := (e, IngestHci c).
Let lmp (p : packet) := (e, IngestLmp Bob p).
Let tick := (e, Tick).
Let link := (e, AddLink Bob).

(** the responder of a pairing, until it waits for the public key *)
Definition responding : list (env * op) :=
  [link; lmp (IoCapabilityReq 1 0 0); tick; hci (IoReply Bob (Params DisplayYesNo NotPresent NoBonding)); tick].

(** a valid public key: of the private key 3 on the curve P-192 *)
Definition three_key : list N := public_of P192 3.
Definition key_packets : list packet :=
  [EncapsulatedHeader 48; EncapsulatedPayload (firstn 16 three_key); EncapsulatedPayload (firstn 16 (skipn 16 three_key));
   EncapsulatedPayload (skipn 32 three_key)].
Definition confirming : list (env * op) :=
  responding ++ flat_map (fun p => [lmp p; tick]) key_packets ++
  flat_map (fun p => [lmp p; tick]) [Accepted ENCAPSULATED_HEADER; Accepted ENCAPSULATED_PAYLOAD;
    Accepted ENCAPSULATED_PAYLOAD; Accepted ENCAPSULATED_PAYLOAD].

(** an orderly history that ends the program *)
Definition crash (rng : nat -> list N) (h : list (env * op)) : Prop := orderly [] h /\ run rng (new_manager 0) h = Abort.

Lemma crash_checked rng h : orderly_b [] h = true ->
  match run rng (new_manager 0) h with Abort => true | _ => false end = true -> crash rng h.
Proof.
  intros O R. split; [apply orderly_checked; exact O|]. destruct (run rng (new_manager 0) h); try discriminate. reflexivity.
Qed.

Ltac crashes := apply crash_checked; vm_compute; reflexivity.

(** Crashes that the host causes: a command that is not handled, two commands at once, an eighth
    link. *)
Lemma host_crashes :
  crash two [hci (OobExtendedReply Bob)] /\
  crash two [link; hci (AuthenticationRequested 7); hci (LinkKeyNegative Bob)] /\
  crash two (map (fun a => (e, AddLink a)) [1; 2; 3; 4; 5; 6; 7; 8]).
Proof. split; [crashes|]. split; crashes. Qed.

(** Crashes that the remote device causes: an unknown capability, a public key of another length,
    the public key zero, another commitment; and a read of features that do not exist. *)
Lemma peer_crashes :
  crash two [link; lmp (IoCapabilityReq 4 0 0); tick] /\
  crash two (responding ++ [lmp (EncapsulatedHeader 32); tick]) /\
  crash two (responding ++ flat_map (fun p => [lmp p; tick])
    [EncapsulatedHeader 48; EncapsulatedPayload (repeat 0 16); EncapsulatedPayload (repeat 0 16); EncapsulatedPayload (repeat 0 16);
     Accepted ENCAPSULATED_HEADER; Accepted ENCAPSULATED_PAYLOAD; Accepted ENCAPSULATED_PAYLOAD; Accepted ENCAPSULATED_PAYLOAD]) /\
  crash two (map (fun x => match x with (e, IngestLmp a (IoCapabilityReq _ _ _)) => (e, IngestLmp a (IoCapabilityReq 1 1 0)) | x => x end) confirming
    ++ [lmp (SimplePairingConfirm (repeat 1 16)); tick; lmp (SimplePairingNumber (repeat 0 16)); tick]) /\
  run two (new_manager 0) [link; lmp (FeaturesReqExt 3 0); tick] = Unbounded.
Proof. split; [crashes|]. split; [crashes|]. split; [crashes|]. split; [crashes|]. vm_compute. reflexivity. Qed.

(** Random bytes that make no private key. *)
Lemma key_crash :
  crash (fun _ => repeat 0 23 ++ 128 :: repeat 0 8) (responding ++ flat_map (fun p => [lmp p; tick]) key_packets).
Proof. crashes. Qed.

(** * A history without surprises *)

Definition pleasant : list (env * op) :=
  confirming ++ flat_map (fun p => [lmp p; tick]) [SimplePairingNumber (repeat 0 16); Accepted SIMPLE_PAIRING_NUMBER] ++
  [hci (ConfirmationReply Bob); tick] ++ flat_map (fun p => [lmp p; tick]) [DhkeyCheck (repeat 0 16); Accepted DHKEY_CHECK] ++
  [(e, RemoveLink Bob)].

Lemma pleasant_case :
  peaceful two 0 pleasant /\
  match run two (new_manager 0) pleasant with Ok (_, l) => skipn 2 (told l) | _ => [] end =
    [Complete kIoReply 0 Bob; UserConfirmationRequest Bob 27; Complete kConfirmationReply 0 Bob; SimplePairingComplete 0 Bob].
Proof. split; [apply peace_checked; vm_compute; reflexivity|]. vm_compute. reflexivity. Qed.

(** * Encryption without the consent of the peer *)

(** The peer refuses every request of an encryption that the host asks for; [on] says whether the
    host wants to turn encryption on or off. *)
Definition unwilling (turn_on : bool) : list (env * op) :=
  hci (SetConnectionEncryption 7 turn_on) :: tick :: flat_map (fun o => [lmp (NotAccepted o 0x18); tick])
    [ENCRYPTION_MODE_REQ; ENCRYPTION_KEY_SIZE_REQ; START_ENCRYPTION_REQ].

Lemma unwilling_case turn_on :
  in_session two 0 [] e Bob (unwilling turn_on) (log_of e Bob (unwilling turn_on)) /\
  told (log_of e Bob (unwilling turn_on)) = [Status kSetConnectionEncryption 0; EncryptionChange 0 7 false] /\
  In (Sent (EncryptionModeReq 1)) (part Bob Encrypting (log_of e Bob (unwilling turn_on))).
Proof.
  destruct turn_on; (split; [meets|]); (split; [vm_compute; reflexivity|]); vm_compute; auto.
Qed.

(** * A link that stops listening *)

(** The peer of a pairing refuses to tell its capabilities, as the procedure of this link manager
    does when its host refuses (see [pairing_respond]); a request for features follows. *)
Definition declined : list (env * op) :=
  [hci (AuthenticationRequested 7); tick; hci (LinkKeyNegative Bob); tick; lmp (FeaturesResExt 1 1); tick;
   hci (IoReply Bob (Params DisplayYesNo NotPresent NoBonding)); tick].

Definition after_declined : list (env * op) := [tick; lmp (FeaturesReqExt 1 0); tick; tick].

Lemma declined_case :
  in_session two 0 [] e Bob (declined ++ lmp (NotAcceptedExt X_IO_CAPABILITY_REQ 5) :: after_declined)
    (log_of e Bob (declined ++ lmp (NotAcceptedExt X_IO_CAPABILITY_REQ 5) :: after_declined)) /\
  told (log_of e Bob (declined ++ lmp (NotAcceptedExt X_IO_CAPABILITY_REQ 5) :: after_declined)) =
    [Status kAuthenticationRequested 0; LinkKeyRequest Bob; Complete kLinkKeyNegative 0 Bob; IoCapabilityRequest Bob; Complete kIoReply 0 Bob].
Proof. split; [meets|]. vm_compute. reflexivity. Qed.

(** The packet that a refusing host makes this link manager send. *)
Lemma declines_case :
  let h := [lmp (IoCapabilityReq 1 0 0); tick; hci (IoNegative Bob 5); tick] in
  in_session two 0 [] e Bob h (log_of e Bob h) /\
  In (Sent (NotAcceptedExt X_IO_CAPABILITY_REQ 5)) (part Bob Authenticated (log_of e Bob h)).
Proof. cbn zeta. split; [meets|]. vm_compute. auto 10. Qed.

(** A link whose peer has the link key. *)
Definition keyed (accepts : bool) : list (env * op) :=
  [hci (AuthenticationRequested 7); tick; hci (LinkKeyReply Bob (repeat 1 16)); tick;
   lmp (if accepts then Sres (repeat 0 4) else NotAccepted AU_RAND 6); tick].

Lemma keyed_case :
  in_session two 0 [] e Bob (keyed true) (log_of e Bob (keyed true)) /\
  in_session two 0 [] e Bob (keyed false) (log_of e Bob (keyed false)) /\
  told (log_of e Bob (keyed true)) =
    [Status kAuthenticationRequested 0; LinkKeyRequest Bob; Complete kLinkKeyReply 0 Bob; AuthenticationComplete SUCCESS 7] /\
  told (log_of e Bob (keyed false)) =
    [Status kAuthenticationRequested 0; LinkKeyRequest Bob; Complete kLinkKeyReply 0 Bob; AuthenticationComplete PIN_OR_KEY_MISSING 7].
Proof. split; [meets|]. split; [meets|]. split; vm_compute; reflexivity. Qed.

End Crashes.
