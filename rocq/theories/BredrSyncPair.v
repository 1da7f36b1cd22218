(** Synchronous connections between two BR/EDR controllers. *)
From Coq Require Import Permutation.
From Verif Require Import Prelude Table Sco Bredr BredrBase BredrInv BredrConn BredrSpec BredrRefine BredrTime BredrFrame BredrData BredrFlow BredrPairSpec BredrPair BredrRemote BredrRole BredrRoles BredrSyncSpec BredrSync.
Open Scope N_scope.

Definition bodies (x : addr) (l : list air) : list body := map content (filter dials (filter (addressed x) l)).
Lemma bodies_app : forall x l l', bodies x (l ++ l') = bodies x l ++ bodies x l'.
Proof. intros. unfold bodies. now rewrite !filter_app, map_app. Qed.
Lemma bodies_none : forall x l, (forall p, In p l -> dials p = false) -> bodies x l = [].
Proof.
  intros x l H. unfold bodies. induction l as [|p l IH]; auto. cbn [filter]. destruct (addressed x p); [cbn [filter]; rewrite H by now left|]; apply IH; intros q I; apply H; now right.
Qed.

(** * One controller *)
Section One.
Variable order : table sco_link -> table sco_link.
Variable cfg : config.
Hypothesis any_order : forall t, Permutation (order t) t.
Variable x : addr.
Variable k : N.

Definition setup_said (h : N) (p : params) (s : bredr) : list body :=
  match lookup (acls s) h with Some c => if list_eqb (acl_peer c) x && negb (busy (shape x s)) then [ScoRequest p (class s)] else [] | None => [] end.
Definition accept_said (y : addr) (p : option params) (e : status) (s : bredr) : list body :=
  if list_eqb y x then
    match shape x s with
    | v :: _ => if pend v then match negotiate (fst (fst v)) (snd (fst v)) (match p with Some p => p | None => snd (fst v) end) with
                               | Some l => [ScoResponse SUCCESS l] | None => [ScoResponse e no_link] end
                else []
    | [] => []
    end
  else [].
Definition command_said (c : command) (s : bredr) : list body :=
  match c with
  | AddSco h t => setup_said h (legacy_params t) s
  | SetupSync h p => setup_said h p s
  | EnhancedSetup h p e => if enhanced_ok p e then setup_said h (with_voice_of s p) s else []
  | AcceptConnection y _ => if paged_by y s then [] else accept_said y None SCO_INTERVAL_REJECTED s
  | AcceptSync y p => accept_said y (Some p) STATUS_UNKNOWN s
  | EnhancedAccept y p e => if enhanced_ok p e then accept_said y (Some (with_voice_of s p)) STATUS_UNKNOWN s else []
  | RejectSync y r => if list_eqb y x && busy (shape x s) then [ScoResponse ((if r =? SUCCESS then REMOTE_USER_TERMINATED else r) mod 256) no_link] else []
  | _ => []
  end.
Definition says (o : op) (s : bredr) : list body :=
  match o with
  | Command c => command_said c s
  | Receive _ p => if for_me p s && list_eqb (source p) x then match content p with ScoRequest _ _ => if busy (shape x s) then [ScoResponse SYNCHRONOUS_LIMIT no_link] else [] | _ => [] end else []
  | _ => []
  end.

(** Nothing is said *)
Lemma silent_jobs : forall js, sends (fun p => dials p = false) js -> bodies x (pk js) = [].
Proof. intros js H. apply bodies_none. exact H. Qed.
Ltac muted := apply silent_jobs; unfold to; sending ltac:(reflexivity).
Lemma bodies_one : forall s y b js, (y = x -> True) -> y <> empty_address -> dials (Air (address s) y b) = true -> sends (fun p => dials p = false) js ->
  bodies x (pk (to s y b :: js)) = if list_eqb y x then [b] else [].
Proof.
  intros s y b js _ NE D H. change (pk (to s y b :: js)) with ([Air (address s) y b] ++ pk js). rewrite bodies_app, (silent_jobs js H), app_nil_r. unfold bodies. cbn [filter].
  unfold addressed. cbn [destination]. assert (E : list_eqb y empty_address = false) by (destruct (list_eqb y empty_address) eqn:E; auto; apply list_eqb_eq in E; contradiction).
  rewrite E. cbn [orb]. destruct (list_eqb y x); [|reflexivity]. cbn [filter]. now rewrite D.
Qed.
Lemma setup_jobs : forall h p s, (List.length (calls x s) <= 1)%nat -> acl_of empty_address s = None -> bodies x (pk (jobs_setup order h p s)) = setup_said h p s.
Proof.
  intros h p s LE NE. unfold jobs_setup, setup_said. destruct (lookup (acls s) h) as [c|] eqn:L; [|reflexivity].
  assert (NA : acl_peer c <> empty_address) by (apply (acl_of_none _ _ h c NE); now apply lookup_pair).
  destruct (list_eqb (acl_peer c) x) eqn:E.
  - apply list_eqb_eq in E. rewrite E at 1. rewrite (pending_calls order any_order) by auto. destruct (busy (shape x s)); [reflexivity|]. rewrite bodies_one; auto; [|apply sends_nil]. now rewrite E, list_eqb_refl.
  - destruct (has_pending_sco order (acl_peer c) s); [reflexivity|]. rewrite bodies_one; auto; [|apply sends_nil]. now rewrite E.
Qed.
Lemma accept_jobs : forall y s p e (ks : N -> link -> list job) (ke : list job), (List.length (calls x s) <= 1)%nat -> calls empty_address s = [] -> core s ->
  (forall h l, sends (fun p => dials p = false) (ks h l)) -> sends (fun p => dials p = false) ke ->
  bodies x (pk match sco_of order y s with
    | Some (h, c) => if is_pending c then match agreed c (match p with Some p => p | None => sco_params c end) with
        | Some l => to s y (ScoResponse SUCCESS l) :: ks h l | None => to s y (ScoResponse e no_link) :: ke end else []
    | None => [] end) = accept_said y p e s.
Proof.
  intros y s p e ks ke LE CE C S1 S2. unfold accept_said. destruct (sco_of order y s) as [[h c]|] eqn:F.
  - assert (NY : y <> empty_address). { intros ->. destruct (sco_lookup order any_order _ _ _ _ C F) as (L & P). assert (I : In (h, c) (calls empty_address s)); [|now rewrite CE in I]. unfold calls. apply filter_In. split; [now apply lookup_pair|]. cbn. now rewrite P, list_eqb_refl. }
    destruct (list_eqb y x) eqn:E.
    + apply list_eqb_eq in E. rewrite E in F. rewrite (shape_only _ _ _ _ (only_call order any_order _ _ _ _ LE F)), pend_seen. destruct (is_pending c); [|reflexivity].
      unfold agreed. cbn [seen fst snd]. destruct (negotiate _ _ _); rewrite bodies_one; auto; now rewrite E, list_eqb_refl.
    + destruct (is_pending c); [|reflexivity]. destruct (agreed c _); rewrite bodies_one; auto; now rewrite E.
  - destruct (list_eqb y x) eqn:E; auto. apply list_eqb_eq in E. rewrite E in F. apply (sco_of_none order any_order) in F. unfold shape. now rewrite F.
Qed.
Lemma says_jobs : forall o s, core s -> (List.length (calls x s) <= 1)%nat -> acl_of empty_address s = None -> calls empty_address s = [] ->
  (forall rssi p, o = Receive rssi p -> dials p = true -> source p <> empty_address) -> bodies x (pk (jobs_of order cfg o s)) = says o s.
Proof.
  intros o s C LE NA NC SRC. destruct o as [c|h pb bc d|h d|rssi p|]; cbn [jobs_of says]; try reflexivity; try solve [muted].
  - destruct c; cbn [jobs_of_command command_said]; cbv zeta; try reflexivity; try solve [unfold jobs_disconnect, jobs_ask; muted].
    + unfold jobs_accept. destruct (paged_by a s); [muted|]. 
      apply (accept_jobs a s None SCO_INTERVAL_REJECTED (fun h l => when_unmasked s 3 (ConnectionComplete SUCCESS h a LINK_SCO)) (when_unmasked s 3 (ConnectionComplete SCO_INTERVAL_REJECTED 0 a LINK_SCO))); auto; intros; apply sends_when.
    + now apply setup_jobs.
    + now apply setup_jobs.
    + unfold jobs_accept_sync. apply (accept_jobs a s (Some p) STATUS_UNKNOWN (fun h l => [Tell (sync_complete SUCCESS h a l)]) [Tell (sync_complete STATUS_UNKNOWN 0 a no_link)]); auto; intros; apply sends_cons; auto; apply sends_nil.
    + destruct (list_eqb a x) eqn:E.
      * apply list_eqb_eq in E. subst a. rewrite (pending_calls order any_order) by auto. cbn [andb]. destruct (busy (shape x s)) eqn:B; [|reflexivity]. rewrite bodies_one; auto; [now rewrite list_eqb_refl| |apply sends_cons; auto; apply sends_nil].
        intros ->. unfold shape in B. rewrite NC in B. discriminate.
      * cbn [andb]. destruct (has_pending_sco order a s) eqn:B; [|reflexivity]. rewrite bodies_one; auto; [now rewrite E| |apply sends_cons; auto; apply sends_nil].
        intros ->. unfold has_pending_sco in B. rewrite (sco_of_calls order any_order) in B by (rewrite NC; cbn; lia). now rewrite NC in B.
    + destruct (enhanced_ok p e); [|reflexivity]. now apply setup_jobs.
    + destruct (enhanced_ok p e); [|reflexivity].
      unfold jobs_accept_sync. apply (accept_jobs a s (Some (with_voice_of s p)) STATUS_UNKNOWN (fun h l => [Tell (sync_complete SUCCESS h a l)]) [Tell (sync_complete STATUS_UNKNOWN 0 a no_link)]); auto; intros; apply sends_cons; auto; apply sends_nil.
  - destruct (for_me p s); [|reflexivity]. cbn [andb]. unfold jobs_of_packet. cbv zeta. revert SRC. destruct (content p) eqn:CO; intros SRC; try solve [destruct (list_eqb (source p) x); muted].
    assert (NE : source p <> empty_address) by (apply (SRC _ _ eq_refl); unfold dials; now rewrite CO). destruct (list_eqb (source p) x) eqn:E.
    + apply list_eqb_eq in E. rewrite E, (pending_calls order any_order) by auto. destruct (busy (shape x s)); [|reflexivity]. rewrite bodies_one; auto; [now rewrite list_eqb_refl|congruence|apply sends_nil].
    + destruct (has_pending_sco order (source p) s); [|reflexivity]. rewrite bodies_one; auto; [now rewrite E|apply sends_nil].
Qed.

(** ** What happens to a synchronous connection *)
(** [turn v heard v' said done asked]: from [v], with the packet [heard], to [v'], and [said] is
    sent; as many completions are reported as [done], and as many connections begin as [asked] *)
Inductive turn : list view -> option body -> list view -> list body -> list status -> nat -> Prop :=
| turn_none : forall v, turn v None v [] [] 0
| turn_setup : forall p c, turn [] None [(PENDING, p, no_link)] [ScoRequest p c] [] 1
| turn_accept : forall st q n p l, pend (st, q, n) = true -> st <> PENDING -> negotiate st q p = Some l -> turn [(st, q, n)] None [(OPENED, q, l)] [ScoResponse SUCCESS l] [SUCCESS] 0
| turn_refuse : forall st q n e d, pend (st, q, n) = true -> st <> PENDING -> e <> SUCCESS -> d <> SUCCESS -> turn [(st, q, n)] None [] [ScoResponse e no_link] [d] 0
| turn_ring : forall q c, turn [] (Some (ScoRequest q c)) [ringing q] [] [] 1
| turn_busy : forall v q c, pend v = true -> turn [v] (Some (ScoRequest q c)) [v] [ScoResponse SYNCHRONOUS_LIMIT no_link] [] 0
| turn_answer : forall v st l, turn [v] (Some (ScoResponse st l)) (if st =? SUCCESS then [(OPENED, snd (fst v), l)] else []) [] [st] 0
| turn_late : forall st l, turn [] (Some (ScoResponse st l)) [] [] [] 0.

Definition hears (o : op) (s : bredr) : option body :=
  match o with Receive _ p => if for_me p s && list_eqb (source p) x && dials p then Some (content p) else None | _ => None end.
Definition is_setup (o : op) (st : option status) : bool :=
  match o, st with
  | Command (AddSco h _), Some st | Command (SetupSync h _), Some st | Command (EnhancedSetup h _ _), Some st => (h =? k) && (st =? SUCCESS)
  | _, _ => false
  end.
Definition rings (o : output) : bool := match o with Event (ConnectionRequest y _ t) => synchronous t && list_eqb y x | _ => false end.
Definition co (out : list output) : list status := flat_map (fun o => match o with Event v => call_complete x v | _ => [] end) out.
Definition cj (js : list job) : list status := flat_map (fun j => match j with Tell v => call_complete x v | _ => [] end) js.
Definition one_if (b : bool) : nat := if b then 1%nat else 0%nat.

Lemma acl_with : forall h s c d h', history order cfg h s -> acl_of x s = Some (k, c) -> lookup (acls s) h' = Some d -> list_eqb (acl_peer d) x = (h' =? k).
Proof.
  intros h s c d h' H F L. destruct (acl_lookup _ _ _ _ (core_history order cfg any_order _ _ H) F) as (L' & P). destruct (N.eqb_spec h' k) as [->|D].
  - assert (d = c) by congruence. subst d. rewrite P. apply list_eqb_refl.
  - destruct (list_eqb (acl_peer d) x) eqn:E; auto. apply list_eqb_eq in E. elim D. eapply (one_peer order cfg any_order); [exact H|exact F|apply lookup_pair; exact L|exact E].
Qed.
Lemma setup_status : forall now h p sp leg s st s', (List.length (calls x s) <= 1)%nat -> setup_sync order now h p sp leg s = Ok (st, s') ->
  st = match lookup (acls s) h with None => UNKNOWN_CONNECTION | Some c => if has_pending_sco order (acl_peer c) s then DISALLOWED else SUCCESS end.
Proof.
  intros now h p sp leg s st s' LE. unfold setup_sync. destruct (lookup (acls s) h) as [c|]; [|now intros [= <- <-]]. cbv zeta.
  destruct (has_pending_sco order (acl_peer c) s); [now intros [= <- <-]|]. intros H. unbind H. now injection H as <- <-.
Qed.
Lemma setup_turn : forall hs now h p sp leg s st s' c, history order cfg hs s -> acl_of x s = Some (k, c) -> (List.length (calls x s) <= 1)%nat -> (List.length (setup x h p s) <= 1)%nat ->
  setup_sync order now h p sp leg s = Ok (st, s') -> turn (shape x s) None (setup x h p s) (setup_said h p s) [] (one_if ((h =? k) && (st =? SUCCESS))).
Proof.
  intros hs now h p sp leg s st s' c H F LE LE' E. apply setup_status in E; auto. unfold setup, setup_said in *. destruct (lookup (acls s) h) as [d|] eqn:L.
  - rewrite (acl_with _ _ _ _ _ H F L) in *. destruct (N.eqb_spec h k) as [->|D]; cbn [andb] in *; [|constructor].
    assert (P : acl_peer d = x). { apply list_eqb_eq. rewrite (acl_with _ _ _ _ _ H F L). apply N.eqb_refl. }
    rewrite P, (pending_calls order any_order) in E by auto. destruct (busy (shape x s)); cbn [negb] in *; subst st; [constructor|].
    rewrite app_length in LE'. cbn in LE'. destruct (shape x s) as [|v l]; [|cbn in LE'; lia]. cbn [app]. change (one_if (SUCCESS =? SUCCESS)) with 1%nat. constructor.
  - subst st. rewrite andb_false_r. constructor.
Qed.

Lemma cj_app : forall l l', cj (l ++ l') = cj l ++ cj l'.
Proof. intros. apply flat_map_app. Qed.
Lemma cj_app_nil : forall l l', cj l = [] -> cj l' = [] -> cj (l ++ l') = [].
Proof. intros l l' E1 E2. now rewrite cj_app, E1, E2. Qed.
Lemma cj_cons_nil : forall j l, match j with Tell v => call_complete x v = [] | _ => True end -> cj l = [] -> cj (j :: l) = [].
Proof. intros j l E1 E2. change (cj ([j] ++ l) = []). apply cj_app_nil; auto. destruct j; auto. cbn. now rewrite E1. Qed.
Lemma cj_when_none : forall s c e, call_complete x e = [] -> cj (when_unmasked s c e) = [].
Proof. intros s c e U. unfold when_unmasked. destruct (unmasked s c); auto. cbn. now rewrite U. Qed.
Lemma cj_when : forall s c e, unmasked s c = true -> cj (when_unmasked s c e) = call_complete x e.
Proof. intros s c e U. unfold when_unmasked. rewrite U. cbn. now rewrite app_nil_r. Qed.
Lemma cj_ended : forall s h r, cj (ended s h r) = [].
Proof. intros s h r. unfold ended. now destruct (unmasked s 5). Qed.
Lemma cj_map_nil : forall (T : Type) (f : T -> job) l, (forall y, match f y with Tell v => call_complete x v = [] | _ => True end) -> cj (map f l) = [].
Proof. intros T f l H. induction l as [|y l IH]; auto. cbn [map]. apply cj_cons_nil; auto. apply H. Qed.
Ltac quietly := repeat first
  [ match goal with |- cj [] = [] => reflexivity end
  | match goal with |- cj (ended _ _ _) = [] => apply cj_ended end
  | match goal with |- cj (when_unmasked _ _ _) = [] => apply cj_when_none; try reflexivity end
  | match goal with |- cj (_ ++ _) = [] => apply cj_app_nil end
  | match goal with |- cj (map _ _) = [] => apply cj_map_nil; intros ?; exact Logic.I end
  | match goal with |- cj (_ :: _) = [] => apply cj_cons_nil; [first [exact Logic.I|reflexivity]|] end
  | match goal with |- cj (match ?x with _ => _ end) = [] => destruct x eqn:? end
  | match goal with |- cj (if ?x then _ else _) = [] => destruct x eqn:? end ].
Lemma cj_setup : forall h p s, cj (jobs_setup order h p s) = [].
Proof. intros. unfold jobs_setup. quietly. Qed.
Lemma shape_calling : forall s, (exists v l, shape x s = v :: l /\ fst (fst v) = PENDING) -> calling x s.
Proof.
  intros s (v & l & E & P). unfold shape in E. destruct (calls x s) as [|[h c] t] eqn:CS; [discriminate|]. injection E as <- <-. exists h, c. rewrite CS. split; [now left|exact P].
Qed.
(** The answer of a host that is polite *)
Lemma accept_turn : forall y s p e (ks : N -> link -> list job) (ke : list job), (List.length (calls x s) <= 1)%nat -> (y = x -> ~ calling x s) -> e <> SUCCESS ->
  (forall h l, cj (ks h l) = if list_eqb y x then [SUCCESS] else []) -> cj ke = (if list_eqb y x then [e] else []) ->
  turn (shape x s) None (accepted x y p s) (accept_said y p e s) (cj match sco_of order y s with
    | Some (h, c) => if is_pending c then match agreed c (match p with Some p => p | None => sco_params c end) with
        | Some l => to s y (ScoResponse SUCCESS l) :: ks h l | None => to s y (ScoResponse e no_link) :: ke end else []
    | None => [] end) 0.
Proof.
  intros y s p e ks ke LE PO NE K1 K2. unfold accept_said, accepted, answered. destruct (list_eqb y x) eqn:E.
  - apply list_eqb_eq in E. subst y. specialize (PO eq_refl). destruct (sco_of order x s) as [[h c]|] eqn:F.
    + pose proof (shape_only _ _ _ _ (only_call order any_order _ _ _ _ LE F)) as SH. rewrite SH in *. rewrite pend_seen. destruct (is_pending c) eqn:PD; [|constructor].
      assert (NP : sco_now c <> PENDING). { intros P. apply PO, shape_calling. exists (seen c), []. split; [exact SH|exact P]. }
      unfold agreed. unfold seen in *. cbn [fst snd] in *. destruct (negotiate (sco_now c) (sco_params c) _) eqn:NG.
      * change (cj (to s x ?b :: ?l)) with (cj l). rewrite K1. apply (turn_accept _ _ _ _ _ PD NP NG).
      * change (cj (to s x ?b :: ?l)) with (cj l). rewrite K2. constructor; auto.
    + apply (sco_of_none order any_order) in F. unfold shape. rewrite F. constructor.
  - assert (Z : forall l, cj match sco_of order y s with
      | Some (h, c) => if is_pending c then match agreed c (match p with Some p => p | None => sco_params c end) with
        | Some l => to s y (ScoResponse SUCCESS l) :: ks h l | None => to s y (ScoResponse e no_link) :: ke end else []
      | None => [] end = l -> l = [] -> turn (shape x s) None (shape x s) [] l 0) by (intros l _ ->; constructor).
    eapply Z; [reflexivity|]. destruct (sco_of order y s) as [[h c]|]; auto. destruct (is_pending c); auto. destruct (agreed c _); [apply K1|apply K2].
Qed.
Lemma command_turn : forall hs s now c st s' out d, history order cfg hs s -> step order cfg now s (Command c) = Ok (s', st, out) -> acl_of x s = Some (k, d) ->
  (List.length (calls x s) <= 1)%nat -> (List.length (after_command x c s) <= 1)%nat -> unmasked s 0x03 = true -> polite x s (Command c) ->
  turn (shape x s) None (after_command x c s) (command_said c s) (cj (jobs_of_command order c s)) (one_if (is_setup (Command c) st)).
Proof.
  intros hs s now c st s' out d H E F LE LE' U PO. cbn [step] in E. unbind E. injection E as <- <- <-.
  assert (Z : forall js, cj js = [] -> turn (shape x s) None (shape x s) [] (cj js) 0) by (intros js ->; constructor).
  destruct c; cbn [after_command command_said jobs_of_command is_setup] in *; change (one_if false) with 0%nat; try (apply Z; reflexivity); try solve [apply Z; cbv zeta; unfold jobs_disconnect, jobs_ask; quietly].
  - (* accept *) unfold jobs_accept. destruct (paged_by a s); [apply Z; quietly|].
    apply (accept_turn a s None SCO_INTERVAL_REJECTED (fun h l => when_unmasked s 3 (ConnectionComplete SUCCESS h a LINK_SCO)) (when_unmasked s 3 (ConnectionComplete SCO_INTERVAL_REJECTED 0 a LINK_SCO))); auto; try discriminate.
    + intros ? ?. rewrite cj_when by exact U. cbn. now destruct (list_eqb a x).
    + rewrite cj_when by exact U. cbn. now destruct (list_eqb a x).
  - cbn [run_command] in E0. unbind E0. unfold quiet in E0. injection E0 as <- <- <-. rewrite cj_setup. eapply setup_turn; eassumption.
  - cbn [run_command] in E0. unbind E0. unfold quiet in E0. injection E0 as <- <- <-. rewrite cj_setup. eapply setup_turn; eassumption.
  - unfold jobs_accept_sync. apply (accept_turn a s (Some p) STATUS_UNKNOWN (fun h l => [Tell (sync_complete SUCCESS h a l)]) [Tell (sync_complete STATUS_UNKNOWN 0 a no_link)]); auto; try discriminate; intros; cbn; now destruct (list_eqb a x).
  - (* reject *) cbv zeta. destruct PO as (RB & PO). destruct (list_eqb a x) eqn:EQ; cbn [andb].
    + apply list_eqb_eq in EQ. subst a. rewrite (pending_calls order any_order) by auto. destruct (shape x s) as [|v l0] eqn:SH; [constructor|]. cbn [busy].
      assert (LL : l0 = []). { rewrite <- length_shape, SH in LE. destruct l0; [reflexivity|cbn in LE; lia]. } subst l0. destruct (pend v) eqn:PD; [|constructor].
      cbn. rewrite list_eqb_refl. cbn. destruct v as [[sv q] n]. apply turn_refuse; [exact PD| | |].
      * intros ->. apply (PO eq_refl), shape_calling. rewrite SH. eauto.
      * destruct (N.eqb_spec reason SUCCESS) as [->|D]; [discriminate|]. rewrite N.mod_small by exact RB. exact D.
      * destruct (N.eqb_spec reason SUCCESS) as [->|D]; [discriminate|]. rewrite N.mod_small by exact RB. exact D.
    + apply Z. quietly. cbn. now rewrite EQ.
  - destruct (enhanced_ok p e) eqn:OK; cbn [run_command] in E0; rewrite OK in E0.
    + unbind E0. unfold quiet in E0. injection E0 as <- <- <-. rewrite cj_setup. eapply setup_turn; eassumption.
    + injection E0 as <- <- <-. rewrite andb_false_r. apply Z. reflexivity.
  - destruct (enhanced_ok p e); [|apply Z; reflexivity].
    unfold jobs_accept_sync. apply (accept_turn a s (Some (with_voice_of s p)) STATUS_UNKNOWN (fun h l => [Tell (sync_complete SUCCESS h a l)]) [Tell (sync_complete STATUS_UNKNOWN 0 a no_link)]); auto; try discriminate; intros; cbn; now destruct (list_eqb a x).
Qed.

Lemma co_said : forall s c e, call_complete x e = [] -> co (said s c e) = [].
Proof. intros s c e E. unfold said. destruct (unmasked s c); auto. cbn. now rewrite E. Qed.
Lemma rings_said : forall s c e, rings (Event e) = false -> filter rings (said s c e) = [].
Proof. intros s c e E. unfold said. destruct (unmasked s c); auto. cbn [filter]. now rewrite E. Qed.
Lemma co_app : forall l l', co (l ++ l') = co l ++ co l'.
Proof. intros. apply flat_map_app. Qed.
Lemma packet_events : forall now rssi p s s' out, (List.length (calls x s) <= 1)%nat -> dispatch order cfg now rssi p s = Ok (s', out) ->
  co out = (if list_eqb (source p) x then match content p with ScoResponse st _ => match shape x s with [] => [] | _ => [st] end | _ => [] end else []) /\
  List.length (filter rings out) = (if list_eqb (source p) x then match content p with ScoRequest _ _ => one_if (negb (busy (shape x s))) | _ => 0%nat end else 0%nat).
Proof.
  intros now rssi p s s' out LE D. unfold dispatch in D.
  assert (Z : forall l, co l = [] -> filter rings l = [] -> co l = (if list_eqb (source p) x then [] else []) /\ List.length (filter rings l) = (if list_eqb (source p) x then 0%nat else 0%nat))
    by (intros l -> ->; now destruct (list_eqb (source p) x)).
  assert (SD : forall c e, call_complete x e = [] -> rings (Event e) = false -> co (said s c e) = [] /\ filter rings (said s c e) = []) by (intros; split; [now apply co_said|now apply rings_said]).
  assert (ABOUT : forall a c (e : N -> event), (forall h, call_complete x (e h) = []) -> (forall h, rings (Event (e h)) = false) -> co (receive_about a c e s) = [] /\ filter rings (receive_about a c e s) = []).
  { intros y c e E1 E2. unfold receive_about. destruct (acl_of y s) as [[? d]|]; [now apply SD|auto]. }
  destruct (content p) eqn:CO; unfold silent, answering in D;
    try (injection D as <- <-; apply Z; reflexivity);
    try (injection D as <- <-; apply Z; now apply SD);
    try (injection D as <- <-; apply Z; now apply ABOUT).
  - injection D as <- <-. unfold receive_acl. apply Z; destruct (acl_of _ s) as [[h0 c0]|]; reflexivity.
  - injection D as <- <-. unfold receive_voice. apply Z; destruct (sco_of _ _ _) as [[h0 c0]|]; reflexivity.
  - unbind D. injection D as <- <-. now apply Z.
  - injection D as <- <-. unfold receive_inquiry_answer. apply Z;
    (destruct (mode =? 0); [now apply SD|]; destruct (mode =? 1); [now apply SD|]; destruct (mode =? 2); reflexivity).
  - injection D as D. unfold receive_page in D. apply Z; (destruct (negb (page_scan_enable s)); [now injection D as <- <-|];
    destruct (negb _); [now injection D as <- <-|]; destruct (has_acl_with _ s); [now injection D as <- <-|]; destruct (page_scan s); now injection D as <- <-).
  - unfold receive_page_response in D. destruct (paging (source p) s) eqn:PG; [|injection D as <- <-; now apply Z]. unbind D. injection D as <- <-.
    apply Z; rewrite ?co_app, ?filter_app;
      (match goal with |- context [if role_eqb ?x ?y then _ else _] => destruct (role_eqb x y) end); rewrite ?co_said, ?rings_said by reflexivity; reflexivity.
  - injection D as D. unfold receive_page_reject in D. apply Z; destruct (paging (source p) s); injection D as <- <-; try reflexivity; now apply SD.
  - unbind D. injection D as <- <-. now apply Z.
  - (* ScoRequest *) unfold receive_sco_request in D. destruct (list_eqb (source p) x) eqn:E.
    + apply list_eqb_eq in E. rewrite E, (pending_calls order any_order) in D by auto. destruct (busy (shape x s)); [now injection D as <- <-|]. cbv zeta in D. unbind D. injection D as <- <-.
      split; [reflexivity|]. cbn [filter rings]. rewrite list_eqb_refl. now destruct (is_extended p0).
    + destruct (has_pending_sco order (source p) s); [now injection D as <- <-|]. cbv zeta in D. unbind D. injection D as <- <-.
      split; [reflexivity|]. cbn [filter rings]. rewrite E, andb_false_r. reflexivity.
  - (* ScoResponse *) unfold receive_sco_response in D. destruct (list_eqb (source p) x) eqn:E.
    + apply list_eqb_eq in E. rewrite E in D. destruct (sco_of order x s) as [[h0 c0]|] eqn:F.
      * rewrite (shape_only _ _ _ _ (only_call order any_order _ _ _ _ LE F)). cbv zeta in D. destruct (N.eqb_spec st SUCCESS) as [->|NS].
        -- unbind D. injection D as <- <-. destruct (sco_legacy c0); cbn; rewrite list_eqb_refl; auto.
        -- no_stream D. injection D as <- <-. destruct (sco_legacy c0); cbn; rewrite list_eqb_refl; auto.
      * injection D as <- <-. apply (sco_of_none order any_order) in F. unfold shape. now rewrite F.
    + destruct (sco_of order (source p) s) as [[h0 c0]|]; [|now injection D as <- <-]. cbv zeta in D. destruct (st =? SUCCESS).
      * unbind D. injection D as <- <-. destruct (sco_legacy c0); cbn; now rewrite E.
      * no_stream D. injection D as <- <-. destruct (sco_legacy c0); cbn; now rewrite E.
Qed.
Lemma packet_jobs_quiet : forall rssi p s, cj (jobs_of order cfg (Receive rssi p) s) = [].
Proof. intros rssi p s. cbn [jobs_of]. destruct (for_me p s); [|reflexivity]. unfold jobs_of_packet. cbv zeta. destruct (content p); quietly. Qed.
Lemma packet_turn : forall hs s now rssi p s' st out, history order cfg hs s -> step order cfg now s (Receive rssi p) = Ok (s', st, out) ->
  (List.length (calls x s) <= 1)%nat -> (List.length (after x (Receive rssi p) s) <= 1)%nat -> (source p = x -> hangs_up p = false) ->
  turn (shape x s) (hears (Receive rssi p) s) (after x (Receive rssi p) s) (says (Receive rssi p) s) (co out) (List.length (filter rings out)).
Proof.
  intros hs s now rssi p s' st out H E LE LE' NH. cbn [step] in E. unbind E. injection E as <- <- <-. unfold receive in E0. cbn [after hears says] in *. destruct (for_me p s).
  2:{ injection E0 as <- <-. constructor. }
  assert (LH : (List.length (calls x (heard_from now (source p) s)) <= 1)%nat) by (unfold calls; rewrite scos_heard; exact LE).
  assert (SH : shape x (heard_from now (source p) s) = shape x s) by apply keeps_same, scos_heard.
  destruct (packet_events _ _ _ _ _ _ LH E0) as (-> & ->). rewrite SH. unfold after_packet in *. cbn [andb]. destruct (list_eqb (source p) x) eqn:EQ; [|constructor]. apply list_eqb_eq in EQ.
  specialize (NH EQ). unfold dials. unfold hangs_up in NH. cbn [andb]. rewrite <- length_shape in LE. destruct (content p); try constructor; try discriminate.
  - destruct (shape x s) as [|v [|v' l1]]; cbn [busy] in *; [constructor| |cbn in LE; lia]. destruct (pend v) eqn:PD; [now constructor|]. cbn in LE'. lia.
  - destruct (shape x s) as [|v [|v' l1]]; [constructor|constructor|cbn in LE; lia].
Qed.
(** ** One step *)
Theorem local_turn : forall hs s now o s' st out d d', history order cfg hs s -> step order cfg now s o = Ok (s', st, out) -> acl_of x s = Some (k, d) -> acl_of x s' = Some (k, d') ->
  (List.length (calls x s) <= 1)%nat -> (List.length (calls x s') <= 1)%nat -> unmasked s 0x03 = true -> polite x s o -> keeps_calls x o s ->
  (forall rssi p, o = Receive rssi p -> source p = x -> hangs_up p = false) -> o <> Tick ->
  turn (shape x s) (hears o s) (shape x s') (says o s) (co out ++ cj (jobs_of order cfg o s)) (one_if (is_setup o st) + List.length (filter rings out)).
Proof.
  intros hs s now o s' st out d d' H E F F' LE LE' U PO KC NH NT. pose proof (step_shape order cfg any_order _ _ _ _ _ _ _ _ _ _ H E LE KC F') as SS. rewrite SS.
  rewrite <- length_shape, SS in LE'.
  assert (OW : match o with Receive _ _ | Tick => False | _ => True end -> co out = [] /\ filter rings out = []).
  { intros NR. pose proof (own_silent order cfg now s o s' st out NR E) as X. clear - X. induction out as [|y l IH]; auto. cbn [co flat_map filter]. destruct y; try (now apply IH). discriminate X. }
  destruct o as [c|h pb bc e|h e|rssi p|]; try contradiction; cbn [hears says after] in *.
  - destruct (OW Logic.I) as (-> & ->). rewrite Nat.add_0_r. cbn [app jobs_of]. eapply command_turn; eassumption.
  - destruct (OW Logic.I) as (-> & ->). cbn [is_setup]. assert (Z : cj (jobs_of order cfg (AclFromHost h pb bc e) s) = []) by (cbn [jobs_of]; quietly). rewrite Z. constructor.
  - destruct (OW Logic.I) as (-> & ->). cbn [is_setup]. assert (Z : cj (jobs_of order cfg (ScoFromHost h e) s) = []) by (cbn [jobs_of]; quietly). rewrite Z. constructor.
  - rewrite packet_jobs_quiet, app_nil_r. cbn [is_setup one_if Nat.add]. eapply packet_turn; try eassumption. now apply (NH rssi).
Qed.

(** A request is never told later *)
Definition asks_host (j : job) : bool := match j with Tell (ConnectionRequest _ _ _) => true | _ => false end.
Definition no_ask (js : list job) : Prop := forall j, In j js -> asks_host j = false.
Lemma no_ask_app : forall l l', no_ask l -> no_ask l' -> no_ask (l ++ l').
Proof. intros l l' A B j I. apply in_app_or in I. destruct I; auto. Qed.
Lemma no_ask_cons : forall j l, asks_host j = false -> no_ask l -> no_ask (j :: l).
Proof. intros j l A B i [<-|I]; auto. Qed.
Lemma no_ask_nil : no_ask [].
Proof. intros j []. Qed.
Lemma no_ask_when : forall s c e, asks_host (Tell e) = false -> no_ask (when_unmasked s c e).
Proof. intros s c e A. unfold when_unmasked. destruct (unmasked s c); [apply no_ask_cons; auto|]; apply no_ask_nil. Qed.
Lemma no_ask_ended : forall s h r, no_ask (ended s h r).
Proof. intros s h r. unfold ended. destruct (unmasked s 5); [apply no_ask_cons; auto|]; apply no_ask_nil. Qed.
Lemma no_ask_map : forall (T : Type) (f : T -> job) l, (forall y, asks_host (f y) = false) -> no_ask (map f l).
Proof. intros T f l H. induction l as [|y l IH]; [apply no_ask_nil|]. now apply no_ask_cons. Qed.
Ltac unasked := repeat first
  [ match goal with |- no_ask [] => apply no_ask_nil end
  | match goal with |- no_ask (ended _ _ _) => apply no_ask_ended end
  | match goal with |- no_ask (when_unmasked _ _ _) => apply no_ask_when; reflexivity end
  | match goal with |- no_ask (_ ++ _) => apply no_ask_app end
  | match goal with |- no_ask (map _ _) => apply no_ask_map; intros ?; reflexivity end
  | match goal with |- no_ask (_ :: _) => apply no_ask_cons; [reflexivity|] end
  | match goal with |- no_ask (match ?x with _ => _ end) => destruct x eqn:? end
  | match goal with |- no_ask (if ?x then _ else _) => destruct x eqn:? end ].
Lemma jobs_no_ask : forall o s, no_ask (jobs_of order cfg o s).
Proof.
  intros o s. destruct o as [c|h pb bc d|h d|rssi p|]; cbn [jobs_of]; [|unasked|unasked| |unasked].
  - destruct c; cbn [jobs_of_command]; cbv zeta; unfold jobs_disconnect, jobs_accept, jobs_setup, jobs_accept_sync, jobs_ask, to; unasked.
  - destruct (for_me p s); [|unasked]. unfold jobs_of_packet, to. cbv zeta. destruct (content p); unasked.
Qed.
Lemma pending_no_ask : forall h s, history order cfg h s -> timely h -> no_ask (pending s).
Proof.
  intros h s H. induction H as [a|h s now o s' st out H IH E]; intros T; [apply no_ask_nil|]. destruct T as (T1 & T2). specialize (IH T2).
  assert (D : o = Tick \/ o <> Tick) by (destruct o; auto; right; discriminate). destruct D as [->|D].
  - destruct (history_tick order cfg any_order _ _ _ _ _ _ H (conj T1 T2) E) as (s1 & _ & _ & _ & MD). intros j I. specialize (MD j I). destruct j; auto. destruct e; auto; contradiction.
  - rewrite (history_gains order cfg any_order _ _ _ _ _ _ _ H (conj T1 T2) D E). apply no_ask_app; [exact IH|apply jobs_no_ask].
Qed.
Lemma cj_pending : forall s, calls_to_tell x s = cj (pending s).
Proof.
  intros s. unfold calls_to_tell, cj, pending. induction (queue s) as [|t q IH]; auto. cbn [flat_map map filter]. rewrite IH. destruct (what_to_do t) eqn:W; cbn [prompt flat_map]; reflexivity.
Qed.
Lemma co_tick : forall h s now s' st out, history order cfg h s -> timely (Entry now Tick st out :: h) -> step order cfg now s Tick = Ok (s', st, out) ->
  co out = calls_to_tell x s /\ calls_to_tell x s' = [] /\ filter rings out = [].
Proof.
  intros h s now s' st out H T E. destruct (history_tick order cfg any_order _ _ _ _ _ _ H T E) as (s1 & -> & _ & _ & MD). rewrite !co_app, !filter_app, !cj_pending.
  assert (P1 : co (snd (do_paging now s1)) = [] /\ filter rings (snd (do_paging now s1)) = []). { unfold do_paging. destruct (page s1); auto. destruct (_ <=? _); auto. now destruct (_ && _). }
  assert (P2 : forall y, co (snd (do_inquiry now y)) = [] /\ filter rings (snd (do_inquiry now y)) = []).
  { intros y. unfold do_inquiry. destruct (inquiry y); auto. destruct (_ <=? _); [split; [now apply co_said|now apply rings_said]|]. now destruct (_ <=? _). }
  destruct P1 as (-> & ->). destruct (P2 (fst (do_paging now s1))) as (-> & ->). rewrite !app_nil_r. split; [|split].
  - clear. induction (pending s) as [|j l IH]; auto. cbn [flat_map cj]. fold (cj l). rewrite co_app, IH. f_equal.
    destruct j; cbn [outcome]; try reflexivity; [cbn; now rewrite app_nil_r|now apply co_said|now apply co_said].
  - clear - MD. induction (pending s') as [|j l IH]; auto. cbn [cj flat_map]. fold (cj l). rewrite IH by (intros y I; apply MD; now right).
    specialize (MD j (or_introl eq_refl)). destruct j; auto. destruct e; auto; contradiction.
  - destruct T as (_ & T). pose proof (pending_no_ask _ _ H T) as NA. clear - NA. induction (pending s) as [|j l IH]; auto. cbn [flat_map]. rewrite filter_app, IH by (intros i I; apply NA; now right).
    rewrite app_nil_r. specialize (NA j (or_introl eq_refl)). destruct j; cbn [outcome]; try reflexivity; [|now apply rings_said|now apply rings_said]. destruct e; try reflexivity. discriminate NA.
Qed.
End One.

(** * Two controllers *)
(** What is under way when both ends are as they are *)
Definition fits (q : params) (l : link) : Prop := exists p, negotiate (fst (fst (ringing q))) q p = Some l.
Inductive phase : list view -> list view -> list body -> list body -> Prop :=
| both_idle : phase [] [] [] []
| both_open : forall q l, fits q l -> phase [(OPENED, q, l)] [(OPENED, q, l)] [] []
| left_asks : forall q c, phase [(PENDING, q, no_link)] [] [ScoRequest q c] []
| left_waits : forall q, phase [(PENDING, q, no_link)] [ringing q] [] []
| left_refused : forall q st l, st <> SUCCESS -> phase [(PENDING, q, no_link)] [] [] [ScoResponse st l]
| left_accepted : forall q l, fits q l -> phase [(PENDING, q, no_link)] [(OPENED, q, l)] [] [ScoResponse SUCCESS l]
| right_asks : forall q c, phase [] [(PENDING, q, no_link)] [] [ScoRequest q c]
| right_waits : forall q, phase [ringing q] [(PENDING, q, no_link)] [] []
| right_refused : forall q st l, st <> SUCCESS -> phase [] [(PENDING, q, no_link)] [ScoResponse st l] []
| right_accepted : forall q l, fits q l -> phase [(OPENED, q, l)] [(PENDING, q, no_link)] [ScoResponse SUCCESS l] []
| both_ask : forall q q' c c', phase [(PENDING, q, no_link)] [(PENDING, q', no_link)] [ScoRequest q c] [ScoRequest q' c']
| right_busy : forall q q' c' st l, st <> SUCCESS -> phase [(PENDING, q, no_link)] [(PENDING, q', no_link)] [] [ScoRequest q' c'; ScoResponse st l]
| left_busy : forall q q' c st l, st <> SUCCESS -> phase [(PENDING, q, no_link)] [(PENDING, q', no_link)] [ScoRequest q c; ScoResponse st l] []
| both_busy : forall q q' st l st' l', st <> SUCCESS -> st' <> SUCCESS -> phase [(PENDING, q, no_link)] [(PENDING, q', no_link)] [ScoResponse st l] [ScoResponse st' l']
| left_again : forall q q' c st l, st <> SUCCESS -> phase [(PENDING, q, no_link)] [(PENDING, q', no_link)] [ScoResponse st l; ScoRequest q c] []
| right_again : forall q q' c' st l, st <> SUCCESS -> phase [(PENDING, q, no_link)] [(PENDING, q', no_link)] [] [ScoResponse st l; ScoRequest q' c'].
Lemma phase_flip : forall v v' q q', phase v v' q q' -> phase v' v q' q.
Proof. intros v v' q q' P. destruct P; constructor; auto. Qed.
Lemma limit_fails : SYNCHRONOUS_LIMIT <> SUCCESS.
Proof. discriminate. Qed.
Definition held (v : list view) : nat := match v with u :: _ => one_if (pend u) | [] => 0%nat end.
Definition opened (v : list view) : nat := match v with (OPENED, _, _) :: _ => 1%nat | _ => 0%nat end.
Definition successes (l : list status) : nat := List.length (filter (fun st => st =? SUCCESS) l).
Definition settles (v v' : list view) (done : list status) (asked : nat) : Prop :=
  (List.length done + held v' = asked + held v)%nat /\ (successes done + opened v = opened v')%nat.
Lemma ringing_pend : forall q, pend (ringing q) = true.
Proof. intros q. unfold ringing. now destruct (is_extended q). Qed.
Lemma none_fits : forall st q p l, negotiate st q p = Some l -> ringing q = (st, q, no_link) -> fits q l.
Proof. intros st q p l H E. exists p. now rewrite E. Qed.
Lemma pend_opened : forall v l, pend v = true -> opened (v :: l) = 0%nat.
Proof. intros [[st q] n] l H. now destruct st. Qed.
Lemma left_turn : forall v r qr ql heard v' said done asked, phase v r qr ql -> turn v heard v' said done asked ->
  (heard = None -> phase v' r (qr ++ said) ql /\ settles v v' done asked) /\
  (forall y ql', heard = Some y -> ql = y :: ql' -> phase v' r (qr ++ said) ql' /\ settles v v' done asked).
Proof.
  intros v r qr ql heard v' said done asked P T. unfold settles. split.
  - intros ->. inversion T; subst; clear T.
    + rewrite app_nil_r. auto.
    + split; [|split; reflexivity]. inversion P; subst; cbn [app]; constructor; auto.
    + assert (NR : ringing q = (st, q, n) -> fits q l) by (intros E; exists p; now rewrite E). rewrite pend_opened by exact H.
      inversion P; subst; cbn in *; try discriminate; try congruence. split; [|rewrite H; split; reflexivity]. constructor. auto.
    + rewrite pend_opened by exact H. assert (NS : successes [d] = 0%nat) by (unfold successes; cbn [filter]; apply N.eqb_neq in H2; now rewrite H2). rewrite NS.
      inversion P; subst; cbn in *; try discriminate; try congruence. split; [now constructor|]. now rewrite H.
  - intros y ql' -> ->. inversion T; subst; clear T.
    + split; [inversion P; subst; cbn [app]; constructor; auto|]. cbn. rewrite ringing_pend. split; [reflexivity|]. unfold ringing. now destruct (is_extended q).
    + split; [|now rewrite Nat.add_0_l]. inversion P; subst; cbn [app]; constructor; auto using limit_fails.
    + split.
      * inversion P; subst; cbn [app]; repeat match goal with N : ?s <> SUCCESS |- _ => apply N.eqb_neq in N; try rewrite N; apply N.eqb_neq in N end; try (change (SUCCESS =? SUCCESS) with true; cbn [fst snd]); try constructor; auto.
      * unfold successes. inversion P; subst; cbn; try (destruct (st =? SUCCESS); split; reflexivity); try (split; reflexivity).
    + split; [inversion P|split; reflexivity].
Qed.

(** Packets of calls come from the sender itself *)
Definition dial_packet (s : bredr) (q : air) : Prop := dials q = true -> source q = address s.
Lemma dial_packets : forall order cfg o s, sends (dial_packet s) (jobs_of order cfg o s).
Proof.
  intros order cfg o s. destruct o as [c|h pb bc d|h d|rssi p|]; cbn [jobs_of].
  - destruct c; cbn [jobs_of_command]; cbv zeta; unfold jobs_disconnect, jobs_accept, jobs_setup, jobs_accept_sync, jobs_ask, to; sending ltac:(first [intros _; reflexivity|intros X; discriminate X]).
  - unfold to. sending ltac:(first [intros _; reflexivity|intros X; discriminate X]).
  - unfold to. sending ltac:(first [intros _; reflexivity|intros X; discriminate X]).
  - destruct (for_me p s); [|apply sends_nil]. unfold jobs_of_packet, to. cbv zeta. destruct (content p) eqn:CO; sending ltac:(first [intros _; reflexivity|intros X; discriminate X]).
  - apply sends_nil.
Qed.
Lemma made_dials : forall S l, Forall (made_packet S) l -> forall q, In q l -> dials q = false.
Proof. intros S l F q I. rewrite Forall_forall in F. specialize (F q I). unfold made_packet, made in F. unfold dials. now destruct (content q). Qed.
Definition dial_honest (x y : addr) (p : air) : Prop := addressed y p = true /\ (dials p = true -> source p = x).
Lemma extra_dials : forall order cfg o s extra x y, adds_packets order cfg o s extra -> address s = x -> Forall (dial_honest x y) (filter (addressed y) extra).
Proof.
  intros order cfg o s extra x y AD A. apply Forall_forall. intros q I. apply filter_In in I. destruct I as (I & D). split; auto. intros SW. destruct AD as [(_ & ->)|(_ & F)].
  - pose proof (dial_packets order cfg o s q I SW) as E. congruence.
  - rewrite (made_dials _ _ F q I) in SW. discriminate.
Qed.
Section Pair.
Variables (order1 order2 : table sco_link -> table sco_link) (cfg1 cfg2 : config) (a b : addr).
Hypothesis any1 : forall t, Permutation (order1 t) t.
Hypothesis any2 : forall t, Permutation (order2 t) t.
Variables k k' : N.
Let reach := reaches order1 order2 cfg1 cfg2 a b.
Lemma dials_honest : forall hl hr w, reach hl hr w -> Forall (dial_honest a b) (way_right b w) /\ Forall (dial_honest b a) (way_left a w).
Proof.
  intros hl hr w R. induction R as [|hl hr w e w' R (I1 & I2) M T|hl hr w e w' R (I1 & I2) M T].
  - split; constructor.
  - destruct (reach_histories _ _ _ _ _ _ any1 any2 _ _ _ R) as (_ & _ & _ & _ & A1 & _).
    destruct (left_way _ _ _ _ _ _ any1 any2 _ _ _ _ _ R M T) as (_ & (extra & WR & AD) & _ & HE). split.
    + rewrite WR. apply Forall_app. split; auto. eapply extra_dials; eauto.
    + destruct HE as [(_ & ->)|(rssi & p & _ & E)]; auto. rewrite E in I2. now inversion I2.
  - destruct (reach_histories _ _ _ _ _ _ any1 any2 _ _ _ R) as (_ & _ & _ & _ & _ & A2).
    destruct (right_way _ _ _ _ _ _ any1 any2 _ _ _ _ _ R M T) as (_ & (extra & WL & AD) & _ & HE). split.
    + destruct HE as [(_ & ->)|(rssi & p & _ & E)]; auto. rewrite E in I1. now inversion I1.
    + rewrite WL. apply Forall_app. split; auto. eapply extra_dials; eauto.
Qed.
Definition in_phase (w : world) : Prop := phase (shape b (left w)) (shape a (right w)) (bodies b (way_right b w)) (bodies a (way_left a w)).

Lemma bodies_filter : forall x l, bodies x (filter (addressed x) l) = bodies x l.
Proof. intros x l. unfold bodies. f_equal. f_equal. induction l as [|p l IH]; auto. cbn [filter]. destruct (addressed x p) eqn:A; cbn [filter]; rewrite ?A; now rewrite IH. Qed.
Lemma left_step : forall hl hr w e w', reach hl hr w -> moves order1 order2 cfg1 cfg2 a b w Left e w' -> timely (e :: hl) -> polite b (left w) (what e) ->
  sync_steady a b k k' w -> sync_steady a b k k' w' -> in_phase w ->
  in_phase w' /\ (List.length (co b (sent e)) + List.length (calls_to_tell b (left w')) + held (shape b (left w')) =
    one_if (is_setup k (what e) (status_of e)) + List.length (filter (rings b) (sent e)) + List.length (calls_to_tell b (left w)) + held (shape b (left w)))%nat /\
  (successes (co b (sent e)) + successes (calls_to_tell b (left w')) + opened (shape b (left w)) = successes (calls_to_tell b (left w)) + opened (shape b (left w')))%nat.
Proof.
  intros hl hr w e w' R M T PO K K' P.
  destruct (reach_histories _ _ _ _ _ _ any1 any2 _ _ _ R) as (H1 & _ & _ & _ & A1 & _). destruct (dials_honest _ _ _ R) as (_ & HL).
  destruct (left_way _ _ _ _ _ _ any1 any2 _ _ _ _ _ R M T) as (RE & (extra & WR & AD) & (st & out & ST & SE & SO) & HE).
  destruct K as (((d & F) & LE & U & NA & NC) & KR & KD & KD'). destruct K' as (((d' & F') & LE' & _) & _ & KU & _).
  assert (KC : keeps_calls b (what e) (left w)).
  { destruct (what e) as [c| | | |] eqn:W; cbn [keeps_calls]; try exact Logic.I. destruct c; try exact Logic.I. intros c L E.
    destruct AD as [(_ & AD)|(X & _)]; [|discriminate]. specialize (KU (Air (address (left w)) b (ScoBye reason))). discriminate KU. rewrite WR. apply in_or_app. right.
    apply filter_In. split; [|unfold addressed; cbn [destination]; now rewrite list_eqb_refl, orb_true_r]. rewrite AD. cbn [jobs_of jobs_of_command]. unfold jobs_disconnect. rewrite L, E. now left. }
  assert (NH : forall rssi p, what e = Receive rssi p -> source p = b -> hangs_up p = false).
  { intros rssi p W SP. destruct HE as [(FO & _)|(rssi' & p' & W' & WL)]; [rewrite W in FO; now destruct FO|]. assert (p' = p) by congruence. subst p'. apply KD'. rewrite WL. now left. }
  assert (NB : b <> empty_address) by (intros ->; rewrite NA in F; discriminate).
  assert (D : what e = Tick \/ what e <> Tick) by (destruct (what e); auto; right; discriminate). destruct D as [W|NT].
  - pose proof (step_shape order1 cfg1 any1 _ _ _ _ _ _ _ _ _ _ H1 ST LE KC F') as SS. rewrite W in *. cbn [after] in SS. rewrite SS.
    destruct AD as [(X & _)|(_ & FM)]; [contradiction|]. destruct HE as [(_ & WL)|(rssi & p & X & _)]; [|discriminate]. split.
    + unfold in_phase. rewrite SS, RE, WL, WR, bodies_app, bodies_filter, (bodies_none b extra), app_nil_r; auto. exact (made_dials _ _ FM).
    + assert (T' : timely (Entry (at_time e) Tick st out :: hl)). { replace (Entry (at_time e) Tick st out) with e; auto. destruct e. cbn in *. now subst. }
      destruct (co_tick order1 cfg1 any1 b _ _ _ _ _ _ H1 T' ST) as (C1 & C2 & C3). rewrite SE, C1, C2, C3. change (successes []) with 0%nat. cbn [is_setup one_if List.length]. split; lia.
  - pose proof (local_turn order1 cfg1 any1 b k _ _ _ _ _ _ _ _ _ H1 ST F F' LE LE' U PO KC NH NT) as TU.
    destruct AD as [(_ & AD)|(X & _)]; [|contradiction]. fold (pk (jobs_of order1 cfg1 (what e) (left w))) in AD.
    assert (T' : timely (Entry (at_time e) (what e) st out :: hl)). { replace (Entry (at_time e) (what e) st out) with e; auto. destruct e. cbn in *. now subst. }
    assert (Y : bodies b (way_right b w') = bodies b (way_right b w) ++ says b (what e) (left w)).
    { rewrite WR, bodies_app, bodies_filter, AD, (says_jobs order1 cfg1 any1 b); auto. { exact (core_history order1 cfg1 any1 _ _ H1). }
      intros rssi p W DP. destruct HE as [(FO & _)|(rssi' & p' & W' & WL)]; [rewrite W in FO; now destruct FO|]. assert (p' = p) by congruence. subst p'.
      rewrite WL in HL. inversion HL as [|? ? (_ & HP) HL']. rewrite HP; auto. }
    assert (Z : (List.length (calls_to_tell b (left w')) = List.length (calls_to_tell b (left w)) + List.length (cj b (jobs_of order1 cfg1 (what e) (left w))))%nat).
    { rewrite !cj_pending, (history_gains order1 cfg1 any1 _ _ _ _ _ _ _ H1 T' NT ST). unfold cj. now rewrite flat_map_app, app_length. }
    assert (Z' : (successes (calls_to_tell b (left w')) = successes (calls_to_tell b (left w)) + successes (cj b (jobs_of order1 cfg1 (what e) (left w))))%nat).
    { rewrite !cj_pending, (history_gains order1 cfg1 any1 _ _ _ _ _ _ _ H1 T' NT ST). unfold cj, successes. now rewrite flat_map_app, filter_app, app_length. }
    rewrite SE, SO.
    assert (ST' : forall y z v v' n, settles v v' (y ++ z) n -> (List.length y + List.length z + held v' = n + held v)%nat /\ (successes y + successes z + opened v = opened v')%nat).
    { intros y z v v' n X. unfold settles, successes in X. rewrite filter_app, !app_length in X. exact X. }
    destruct (left_turn _ _ _ _ _ _ _ _ _ P TU) as (L1 & L2). unfold in_phase. rewrite Y, RE.
    destruct HE as [(FO & WL)|(rssi & p & W & WL)].
    + rewrite WL. destruct L1 as (L1 & L1').
      { unfold hears. destruct (what e) as [| | |rssi p|]; auto. destruct (list_eqb (source p) b) eqn:E; [|now rewrite andb_false_r]. apply list_eqb_eq in E. now destruct FO. }
      split; [exact L1|]. apply ST' in L1'. lia.
    + rewrite WL in HL. inversion HL as [|? ? (FM & HP) HL']. subst x l. rewrite <- A1 in FM. destruct (dials p) eqn:DP.
      * assert (HH : hears b (what e) (left w) = Some (content p)). { rewrite W. unfold hears. change (for_me p (left w)) with (addressed (address (left w)) p). rewrite FM, (HP eq_refl), list_eqb_refl, DP. reflexivity. }
        destruct (L2 (content p) (bodies a (way_left a w')) HH) as (L3 & L4). { rewrite WL. unfold bodies. cbn [filter]. rewrite <- A1, FM. cbn [filter]. now rewrite DP. }
        split; [exact L3|]. apply ST' in L4. lia.
      * assert (HH : hears b (what e) (left w) = None). { rewrite W. unfold hears. now rewrite DP, andb_false_r. }
        destruct (L1 HH) as (L3 & L4). replace (bodies a (way_left a w')) with (bodies a (way_left a w)). { split; [exact L3|]. apply ST' in L4. lia. }
        rewrite WL. unfold bodies. cbn [filter]. rewrite <- A1, FM. cbn [filter]. now rewrite DP.
Qed.
End Pair.
