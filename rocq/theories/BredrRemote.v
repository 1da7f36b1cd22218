(** Two BR/EDR controllers: the questions about the other device are answered. *)
From Coq Require Import Permutation.
From Verif Require Import Prelude Table Sco Bredr BredrBase BredrInv BredrConn BredrSpec BredrRefine BredrTime BredrFrame BredrData BredrFlow BredrPairSpec BredrPair BredrRemoteSpec.
Open Scope N_scope.

(** * The events that are told by a tick *)
Definition late_event (e : event) : bool :=
  match e with
  | ConnectionComplete _ _ _ _ | DisconnectionComplete _ _ _ | RoleChange _ _ _ | SynchronousComplete _ _ _ _ _ _ _ _ _
  | QosComplete _ _ _ _ _ _ _ | CompletedPackets _ _ | PacketTypeChanged _ _ _ | InquiryComplete _ => true
  | _ => false
  end.
Definition late_job (j : job) : Prop := match j with Tell e => late_event e = true | _ => True end.

Section One.
Variable order : table sco_link -> table sco_link.
Variable cfg : config.
Hypothesis any_order : forall t, Permutation (order t) t.

Lemma late_when : forall s c e, late_event e = true -> Forall late_job (when_unmasked s c e).
Proof. intros s c e L. unfold when_unmasked. destruct (unmasked s c); auto. Qed.
Lemma late_ended : forall s h r, Forall late_job (ended s h r).
Proof. intros s h r. unfold ended. destruct (unmasked s 0x05); auto. constructor; auto. reflexivity. Qed.
Lemma late_to : forall s a b l, Forall late_job l -> Forall late_job (to s a b :: l).
Proof. intros. constructor; auto. exact Logic.I. Qed.

Ltac late := repeat first
  [ apply Forall_nil | apply late_to | apply late_ended | (apply late_when; reflexivity) | apply Forall_app; split
  | apply Forall_cons; [first [exact Logic.I|reflexivity]|]
  | match goal with |- Forall _ (match ?x with _ => _ end) => destruct x end
  | match goal with |- Forall _ (if ?x then _ else _) => destruct x end ].
Lemma late_jobs : forall o s, Forall late_job (jobs_of order cfg o s).
Proof.
  intros o s. destruct o as [c|h pb bc d|h d|rssi p|]; cbn [jobs_of]; try solve [late].
  - destruct c; cbn [jobs_of_command]; cbv zeta; unfold jobs_disconnect, jobs_accept, jobs_ask, jobs_setup, jobs_accept_sync; try solve [late].
    apply Forall_app; split; apply Forall_forall; intros j J; apply in_map_iff in J; destruct J as (x & <- & _); exact Logic.I.
  - destruct (for_me p s); auto. unfold jobs_of_packet. cbv zeta. destruct (content p); late.
Qed.
Lemma late_history : forall h s, history order cfg h s -> timely h -> Forall late_job (pending s).
Proof.
  intros h s H. induction H as [x|h s now o s' st out H IH E]; intros T; [constructor|].
  assert (TK : o = Tick \/ o <> Tick) by (destruct o; auto; right; discriminate). destruct TK as [->|NT].
  - destruct (history_tick order cfg any_order _ _ _ _ _ _ H T E) as (s1 & _ & _ & _ & MD). apply Forall_forall. intros j J. specialize (MD j J).
    destruct j; try exact Logic.I. cbn [made] in MD. destruct e; now cbn in MD |- *.
  - rewrite (history_gains order cfg any_order _ _ _ _ _ _ _ H T NT E). apply Forall_app. split; [apply IH; apply T|apply late_jobs].
Qed.

(** * What a step tells at once *)
Definition events_of (out : list output) : list event := flat_map (fun o => match o with Event e => [e] | _ => [] end) out.
Lemma events_app : forall x y, events_of (x ++ y) = events_of x ++ events_of y.
Proof. intros. apply flat_map_app. Qed.
Lemma tick_late : forall h s now s' st out, history order cfg h s -> timely (Entry now Tick st out :: h) -> step order cfg now s Tick = Ok (s', st, out) ->
  Forall (fun e => late_event e = true) (events_of out).
Proof.
  intros h s now s' st out H T E. destruct (history_tick order cfg any_order _ _ _ _ _ _ H T E) as (s1 & -> & _). rewrite !events_app.
  assert (SD : forall x c e, late_event e = true -> Forall (fun e => late_event e = true) (events_of (said x c e))).
  { intros x c e L. unfold said. destruct (unmasked x c); cbn; auto. }
  apply Forall_app; split; [|apply Forall_app; split].
  - pose proof (late_history _ _ H (proj2 T)) as L. clear - L SD. induction L as [|j l LJ L IH]; [constructor|]. cbn [flat_map]. rewrite events_app. apply Forall_app. split; auto.
    destruct j; cbn [outcome]; [constructor|constructor; [exact LJ|constructor]|now apply SD|now apply SD|constructor|constructor].
  - unfold do_paging. destruct (page s1); auto; [|constructor]. destruct (_ <=? _); [repeat constructor|]. destruct (_ && _); constructor.
  - unfold do_inquiry. destruct (inquiry _); [|constructor]. destruct (_ <=? _); [cbn [snd]; now apply SD|]. destruct (_ <=? _); constructor.
Qed.
Lemma own_silent : forall now s o s' st out, match o with Receive _ _ | Tick => False | _ => True end -> step order cfg now s o = Ok (s', st, out) -> events_of out = [].
Proof.
  intros now s o s' st out NR H. destruct o as [c|h pb bc d|h d|rssi p|]; try contradiction; cbn [step] in H; unbind H; try (injection H as <- <- <-); try reflexivity.
  destruct c; cbn [run_command] in E; unfold quiet in E;
    try (injection E as <- <- <-; reflexivity);
    try (unbind E; injection E as <- <- <-; reflexivity).
  - destruct (enhanced_ok p e); [|now injection E as <- <- <-]. unbind E. now injection E as <- <- <-.
  - destruct (enhanced_ok p e); [|now injection E as <- <- <-]. unbind E. now injection E as <- <- <-.
  - destruct (lookup (acls s) h); now injection E as <- <- <-.
  - destruct (7 <? n); now injection E as <- <- <-.
Qed.
(** The links are told apart by their peers *)
Lemma one_peer : forall h s k c a, history order cfg h s -> acl_of a s = Some (k, c) -> forall k' c', In (k', c') (acls s) -> acl_peer c' = a -> k' = k.
Proof.
  intros h s k c a H F k' c' I E. apply acl_of_some in F. destruct F as (J & F).
  pose proof (conn_nodup _ (conn_history order cfg any_order _ _ H)) as ND. unfold peers in ND.
  clear - ND I J E F. revert ND I J. induction (acls s) as [|[x d] t IH]; intros ND I J; [easy|]. cbn [map] in ND. inversion ND as [|? ? N1 N2]; subst.
  destruct I as [[= -> ->]|I], J as [[= -> ->]|J]; auto.
  - elim N1. apply in_map_iff. exists (k, c). cbn. auto.
  - elim N1. apply in_map_iff. exists (k', c'). cbn. auto.
Qed.
End One.

Section Remote.
Variables (order1 order2 : table sco_link -> table sco_link) (cfg1 cfg2 : config) (a b : addr).
Hypothesis any1 : forall t, Permutation (order1 t) t.
Hypothesis any2 : forall t, Permutation (order2 t) t.
Variables (k : N) (nm : list N) (hf : N).
Hypothesis real : b <> empty_address.
Hypothesis pages : List.length (lmp_features cfg2) = 3%nat.
Hypothesis small : lmp_subversion cfg2 < 256.

Lemma real_eqb : list_eqb empty_address b = false.
Proof. destruct (list_eqb empty_address b) eqn:E; auto. apply list_eqb_eq in E. congruence. Qed.
Lemma eqb_false : forall x y : addr, x <> y -> list_eqb x y = false.
Proof. intros x y N. destruct (list_eqb x y) eqn:E; auto. apply list_eqb_eq in E. congruence. Qed.

(** The events that the packets on their way will cause *)
Definition by_reply (p : air) : list event :=
  if list_eqb (source p) b && addressed a p then
    match content p with
    | NameResponse n => [RemoteNameComplete SUCCESS b n]
    | FeaturesResponse f => [SupportedFeaturesComplete SUCCESS k f]
    | LmpFeaturesResponse f => [HostFeaturesNotification b f]
    | ExtendedFeaturesResponse st n l f => [ExtendedFeaturesComplete st k n l f]
    | VersionResponse v sub m => [VersionComplete SUCCESS k v m sub]
    | ClockResponse off => [ClockOffsetComplete SUCCESS k off]
    | _ => []
    end
  else [].
Definition by_question (p : air) : list event :=
  if list_eqb (destination p) b then
    match content p with
    | NameRequest => [RemoteNameComplete SUCCESS b nm]
    | FeaturesRequest => [SupportedFeaturesComplete SUCCESS k (nth 0 (lmp_features cfg2) 0)]
    | LmpFeaturesRequest => [HostFeaturesNotification b hf]
    | ExtendedFeaturesRequest n => [ExtendedFeaturesComplete SUCCESS k n 2 (if n =? 1 then hf else nth (N.to_nat n) (lmp_features cfg2) 0)]
    | VersionRequest => [VersionComplete SUCCESS k (lmp_version cfg2) (company cfg2) (lmp_subversion cfg2)]
    | ClockRequest => [ClockOffsetComplete SUCCESS k 0]
    | _ => []
    end
  else [].
Definition honest (p : air) : Prop := is_question p = true -> source p = a.
Definition questions (l : list air) := flat_map by_question l.
Definition replies (l : list air) := flat_map by_reply l.
Lemma questions_app : forall x y, questions (x ++ y) = questions x ++ questions y.
Proof. intros. apply flat_map_app. Qed.
Lemma replies_app : forall x y, replies (x ++ y) = replies x ++ replies y.
Proof. intros. apply flat_map_app. Qed.
Lemma questions_filter : forall l, questions (filter (addressed b) l) = questions l.
Proof.
  induction l as [|p l IH]; auto. cbn [filter questions flat_map]. fold (questions l). destruct (addressed b p) eqn:A; cbn [questions flat_map]; fold (questions (filter (addressed b) l)); rewrite IH; auto.
  unfold addressed in A. apply orb_false_iff in A. unfold by_question. now rewrite (proj2 A).
Qed.
Lemma replies_filter : forall l, replies (filter (addressed a) l) = replies l.
Proof.
  induction l as [|p l IH]; auto. cbn [filter replies flat_map]. fold (replies l). destruct (addressed a p) eqn:A; cbn [replies flat_map]; fold (replies (filter (addressed a) l)); rewrite IH; auto.
  unfold by_reply. now rewrite A, andb_false_r.
Qed.
Lemma questions_made : forall S l, Forall (made_packet S) l -> questions l = [].
Proof.
  intros S l F. induction F as [|p l M F IH]; auto. cbn [questions flat_map]. fold (questions l). rewrite IH, app_nil_r. unfold by_question.
  destruct (list_eqb _ _); auto. unfold made_packet in M. cbn [made] in M. destruct (content p); try reflexivity; destruct M.
Qed.
Lemma replies_made : forall S l, Forall (made_packet S) l -> replies l = [].
Proof.
  intros S l F. induction F as [|p l M F IH]; auto. cbn [replies flat_map]. fold (replies l). rewrite IH, app_nil_r. unfold by_reply.
  destruct (_ && _); auto. unfold made_packet in M. cbn [made] in M. destruct (content p); try reflexivity; destruct M.
Qed.
Lemma honest_made : forall S l, Forall (made_packet S) l -> Forall honest l.
Proof.
  intros S l F. eapply Forall_impl; [|exact F]. intros p M Q. unfold made_packet in M. cbn [made] in M. unfold is_question in Q. destruct (content p); try discriminate; destruct M.
Qed.
Lemma honest_filter : forall l, Forall honest l -> Forall honest (filter (addressed b) l).
Proof. intros l F. apply Forall_forall. intros p I. apply filter_In in I. rewrite Forall_forall in F. now apply F. Qed.

(** ** The packets of an operation *)
Definition pk (js : list job) := flat_map packet_of js.
Lemma pk_app : forall x y, pk (x ++ y) = pk x ++ pk y.
Proof. intros. apply flat_map_app. Qed.
Lemma pk_when : forall s c e, pk (when_unmasked s c e) = [].
Proof. intros s c e. unfold when_unmasked. now destruct (unmasked s c). Qed.
Lemma pk_ended : forall s h r, pk (ended s h r) = [].
Proof. intros s h r. unfold ended. now destruct (unmasked s 0x05). Qed.
Definition plain_body (x : body) : bool := negb (is_question (Air [] [] x)) && negb (is_reply (Air [] [] x)).
Definition plain_jobs (js : list job) : Prop := forall p, In p (pk js) -> plain_body (content p) = true.
Lemma plain_app : forall x y, plain_jobs x -> plain_jobs y -> plain_jobs (x ++ y).
Proof. intros x y A B p I. rewrite pk_app in I. apply in_app_or in I. destruct I; auto. Qed.
Lemma plain_nil : plain_jobs [].
Proof. intros p []. Qed.
Lemma plain_cons : forall j l, match j with Transmit p => plain_body (content p) = true | _ => True end -> plain_jobs l -> plain_jobs (j :: l).
Proof. intros j l A B p I. cbn [pk flat_map] in I. apply in_app_or in I. destruct I as [I|I]; [|now apply B]. destruct j; cbn in I; try contradiction. destruct I as [<-|[]]. exact A. Qed.
Lemma plain_when : forall s c e, plain_jobs (when_unmasked s c e).
Proof. intros s c e p I. now rewrite pk_when in I. Qed.
Lemma plain_ended : forall s h r, plain_jobs (ended s h r).
Proof. intros s h r p I. now rewrite pk_ended in I. Qed.
Ltac plains := repeat first
  [ apply plain_nil | apply plain_ended | apply plain_when | apply plain_app
  | apply plain_cons; [first [exact Logic.I|reflexivity]|]
  | match goal with |- plain_jobs (match ?x with _ => _ end) => destruct x end
  | match goal with |- plain_jobs (if ?x then _ else _) => destruct x end ].
Lemma plain_questions : forall js, plain_jobs js -> questions (pk js) = [] /\ replies (pk js) = [] /\ Forall honest (pk js).
Proof.
  intros js P. unfold plain_jobs in P. induction (pk js) as [|p l IH]; [auto|]. destruct IH as (Q & R & H); [intros q I; apply P; now right|].
  specialize (P p (or_introl eq_refl)). unfold plain_body in P. apply andb_true_iff in P. destruct P as (P1 & P2). apply negb_true_iff in P1, P2.
  cbn [questions replies flat_map]. fold (questions l) (replies l). rewrite Q, R, !app_nil_r. unfold is_question, is_reply in P1, P2. cbn [content] in P1, P2.
  unfold by_question, by_reply. split; [|split; [|constructor; auto]].
  - destruct (list_eqb _ _); auto. destruct (content p); auto; discriminate.
  - destruct (_ && _); auto. destruct (content p); auto; discriminate.
  - intros X. unfold is_question in X. destruct (content p); discriminate.
Qed.
Definition asks_about (c : command) : bool :=
  match c with RemoteName _ | ReadSupportedFeatures _ | ReadExtendedFeatures _ _ | ReadVersion _ | ReadClockOffset _ => true | _ => false end.
Lemma plain_command : forall order c s, asks_about c = false -> plain_jobs (jobs_of_command order c s).
Proof.
  intros order c s A. destruct c; try discriminate A; cbn [jobs_of_command]; cbv zeta; unfold jobs_disconnect, jobs_accept, jobs_setup, jobs_accept_sync; try solve [plains].
  apply plain_app; intros p I; apply in_flat_map in I; destruct I as (j & J & I); apply in_map_iff in J; destruct J as (x & <- & _); destruct I as [<-|[]]; reflexivity.
Qed.
Lemma plain_own : forall order cfg o s, match o with Receive _ _ => False | Command c => asks_about c = false | _ => True end -> plain_jobs (jobs_of order cfg o s).
Proof.
  intros order cfg o s A. destruct o; try contradiction; cbn [jobs_of]; [now apply plain_command|plains..].
Qed.

(** The left one asks *)
Lemma asks : forall h s c, history order1 cfg1 h s -> address s = a -> (exists d, acl_of b s = Some (k, d)) ->
  questions (pk (jobs_of_command order1 c s)) = true_answers b k cfg2 nm hf c /\ Forall honest (pk (jobs_of_command order1 c s)).
Proof.
  intros h s c H AD (d & L). destruct (asks_about c) eqn:A; [|].
  2:{ destruct (plain_questions _ (plain_command order1 c s A)) as (Q & _ & HO). split; auto. rewrite Q. destruct c; try discriminate A; reflexivity. }
  assert (ASK : forall x body ev, is_question (Air a b body) = true -> by_question (Air a b body) = [ev] ->
    questions (pk (jobs_ask x body s)) = (if x =? k then [ev] else []) /\ Forall honest (pk (jobs_ask x body s))).
  { intros x bd ev Q B. unfold jobs_ask. destruct (N.eqb_spec x k) as [->|N].
    - destruct (acl_lookup _ _ _ _ (core_history order1 cfg1 any1 _ _ H) L) as (LK & PE). rewrite LK. cbn [pk flat_map packet_of to app]. rewrite PE, AD. cbn [questions flat_map]. rewrite B. split; auto.
      constructor; auto. intros _. reflexivity.
    - destruct (lookup (acls s) x) as [e|] eqn:LX; [|split; constructor]. cbn [pk flat_map packet_of to app].
      assert (NE : acl_peer e <> b). { intros E. apply N. eapply (one_peer order1 cfg1 any1); eauto. now apply lookup_pair. }
      split; [|constructor; auto; intros _; exact AD]. cbn [questions flat_map]. unfold by_question. cbn [destination]. now rewrite eqb_false. }
  destruct c; try discriminate A; cbn [jobs_of_command true_answers]; try (apply ASK; [reflexivity|unfold by_question; cbn [destination content]; now rewrite list_eqb_refl]).
  cbn [pk flat_map packet_of to app questions]. unfold by_question. cbn [destination content]. split.
  - destruct (list_eqb a0 b); reflexivity.
  - repeat constructor; intros _; exact AD.
Qed.

(** The left one is answered *)
Lemma about_app : forall x y, answers_in b k (x ++ y) = answers_in b k x ++ answers_in b k y.
Proof. intros. apply flat_map_app. Qed.
Lemma about_events : forall out, Forall (fun e => is_answer b k e = false) (events_of out) -> answers_in b k out = [].
Proof.
  induction out as [|o out IH]; auto. cbn [events_of flat_map]. intros F. apply Forall_app in F. destruct F as (F1 & F2). cbn [answers_in flat_map].
  fold (answers_in b k out). rewrite IH by exact F2. destruct o; auto. inversion F1 as [|? ? E _]. now rewrite E.
Qed.
Lemma about_late : forall out, Forall (fun e => late_event e = true) (events_of out) -> answers_in b k out = [].
Proof. intros out F. apply about_events. eapply Forall_impl; [|exact F]. intros e L. now destruct e. Qed.
Lemma about_said : forall s c e, answers_in b k (said s c e) = if unmasked s c && is_answer b k e then [e] else [].
Proof. intros s c e. unfold said. destruct (unmasked s c); auto. cbn. now destruct (is_answer b k e). Qed.

Definition hears_all (s : bredr) : Prop := forall code, In code [0x07; 0x0b; 0x0c; 0x1c; 0x23; 0x3d] -> unmasked s code = true.
Lemma heard_same : forall now x s, exists t, heard_from now x s = with_acls t s.
Proof. intros now x s. unfold heard_from. destruct (acl_of x s) as [[h c]|]; [eauto|]. exists (acls s). now destruct s. Qed.
Lemma answered : forall h s now rssi p s' st out, history order1 cfg1 h s -> address s = a -> (exists d, acl_of b s = Some (k, d)) -> hears_all s ->
  step order1 cfg1 now s (Receive rssi p) = Ok (s', st, out) -> answers_in b k out = by_reply p.
Proof.
  intros h s now rssi p s' st out H AD (d & L) HA E. cbn [step] in E. unbind E. injection E as <- <- <-. rename E0 into E. unfold receive in E.
  assert (FM : for_me p s = addressed a p) by (unfold for_me, addressed; now rewrite AD). rewrite FM in E. unfold by_reply.
  destruct (addressed a p); [|injection E as <- <-; now rewrite andb_false_r]. rewrite andb_true_r.
  pose proof (core_history order1 cfg1 any1 _ _ H) as C.
  assert (UN : forall code, In code [0x07; 0x0b; 0x0c; 0x1c; 0x23; 0x3d] -> unmasked (heard_from now (source p) s) code = true).
  { intros code I. destruct (heard_same now (source p) s) as (t & ->). exact (HA code I). }
  assert (AB : forall code e, In code [0x07; 0x0b; 0x0c; 0x1c; 0x23; 0x3d] -> (forall x, is_answer b k (e x) = (x =? k)) ->
    answers_in b k (receive_about (source p) code e (heard_from now (source p) s)) = if list_eqb (source p) b then [e k] else []).
  { intros code e I IA. unfold receive_about. destruct (list_eqb (source p) b) eqn:EB.
    - apply list_eqb_eq in EB. pose proof (acl_of_heard now b s k d C L) as AH. rewrite <- EB in AH at 1 2. rewrite EB in AH at 1. rewrite <- EB in AH. rewrite AH.
      rewrite about_said, UN, IA, N.eqb_refl by assumption. reflexivity.
    - destruct (acl_of (source p) (heard_from now (source p) s)) as [[x c]|] eqn:F; auto. rewrite about_said, IA.
      destruct (N.eqb_spec x k) as [->|N]; [|now rewrite andb_false_r]. exfalso.
      destruct (acl_of (source p) s) as [[y c']|] eqn:F'; [|rewrite (acl_of_heard_none now _ _ F') in F; congruence].
      rewrite (acl_of_heard _ _ _ _ _ C F') in F. injection F as -> _. destruct (acl_lookup _ _ _ _ C F') as (L1 & P1). destruct (acl_lookup _ _ _ _ C L) as (L2 & P2).
      assert (c' = d) by congruence. subst c'. rewrite <- P1, P2, list_eqb_refl in EB. discriminate. }
  revert UN AB E. set (s1 := heard_from now (source p) s). clearbody s1. intros UN AB E.
  assert (NA : forall e, late_event e = true -> forall c, answers_in b k (said s1 c e) = []).
  { intros e LE c. rewrite about_said. destruct e; try discriminate LE; now rewrite andb_false_r. }
  unfold dispatch in E. destruct (content p) eqn:CO; unfold silent, answering in E;
    try (injection E as <- <-; now destruct (list_eqb (source p) b));
    try (injection E as <- <-; rewrite AB; [reflexivity|cbn; tauto|reflexivity]).
  - (* Acl *) injection E as <- <-. unfold receive_acl. destruct (acl_of (source p) s1) as [[x c]|]; now destruct (list_eqb (source p) b).
  - (* Voice *) injection E as <- <-. unfold receive_voice. destruct (sco_of order1 (source p) s1) as [[x c]|]; now destruct (list_eqb (source p) b).
  - (* Bye *) unbind E. injection E as <- <-. now destruct (list_eqb (source p) b).
  - (* InquiryAnswer *) injection E as <- <-. unfold receive_inquiry_answer.
    repeat match goal with |- context [if ?x then _ else _] => destruct x end; try reflexivity; rewrite about_said; cbn [is_answer]; now rewrite andb_false_r.
  - (* Page *) injection E as E. unfold receive_page in E.
    destruct (negb (page_scan_enable s1)); [injection E as <- <-; now destruct (list_eqb (source p) b)|].
    destruct (negb _); [injection E as <- <-; now destruct (list_eqb (source p) b)|].
    destruct (has_acl_with _ s1); [injection E as <- <-; now destruct (list_eqb (source p) b)|]. destruct (page_scan s1); injection E as <- <-; now destruct (list_eqb (source p) b).
  - (* PageResponse *) unfold receive_page_response in E. destruct (paging (source p) s1); [|injection E as <- <-; now destruct (list_eqb (source p) b)]. unbind E. injection E as <- <-.
    rewrite about_app, !about_said. cbn [is_answer]. rewrite !andb_false_r, app_nil_r.
    match goal with |- context [if role_eqb ?x ?y then _ else _] => destruct (role_eqb x y) end; [rewrite about_said; cbn [is_answer]; rewrite andb_false_r|]; now destruct (list_eqb (source p) b).
  - (* PageReject *) injection E as E. unfold receive_page_reject in E. destruct (paging (source p) s1); injection E as <- <-; [rewrite about_said; cbn [is_answer]; rewrite andb_false_r|]; now destruct (list_eqb (source p) b).
  - (* NameResponse *) injection E as <- <-. rewrite about_said, UN by (cbn; tauto). cbn [is_answer]. destruct (list_eqb (source p) b) eqn:EB; auto. apply list_eqb_eq in EB. now rewrite EB.
  - (* LmpFeaturesResponse *) injection E as <- <-. rewrite about_said, UN by (cbn; tauto). cbn [is_answer]. destruct (list_eqb (source p) b) eqn:EB; auto. apply list_eqb_eq in EB. now rewrite EB.
  - (* ExtendedFeaturesRequest *) unbind E. injection E as <- <-. now destruct (list_eqb (source p) b).
  - (* ScoRequest *) unfold receive_sco_request in E. destruct (has_pending_sco order1 (source p) s1); [injection E as <- <-; now destruct (list_eqb (source p) b)|]. unbind E. injection E as <- <-. now destruct (list_eqb (source p) b).
  - (* ScoResponse *) unfold receive_sco_response in E. destruct (sco_of order1 (source p) s1) as [[x c]|]; [|injection E as <- <-; now destruct (list_eqb (source p) b)].
    destruct (st =? SUCCESS); [unbind E|no_stream E]; injection E as <- <-; destruct (sco_legacy c); now destruct (list_eqb (source p) b).
Qed.

(** The packets that a received packet causes: none asks, and they go back *)
Lemma receive_jobs : forall order cfg rssi p s, Forall honest (pk (jobs_of_packet order cfg rssi p s)) /\ questions (pk (jobs_of_packet order cfg rssi p s)) = [] /\
  (source p <> a -> source p <> empty_address -> replies (pk (jobs_of_packet order cfg rssi p s)) = []).
Proof.
  intros order cfg rssi p s.
  assert (Z : forall x, is_question x = false -> Forall honest [x] /\ questions [x] = [] /\ (destination x <> a -> destination x <> empty_address -> replies [x] = [])).
  { intros x Q. split; [constructor; auto; intros X; congruence|]. split.
    - cbn [questions flat_map]. rewrite app_nil_r. unfold by_question. destruct (list_eqb _ _); auto. unfold is_question in Q. now destruct (content x).
    - intros N1 N2. cbn [replies flat_map]. rewrite app_nil_r. unfold by_reply, addressed. rewrite (eqb_false _ _ N1), (eqb_false _ _ N2). now rewrite andb_false_r. }
  assert (PL : forall js, plain_jobs js -> Forall honest (pk js) /\ questions (pk js) = [] /\ (source p <> a -> source p <> empty_address -> replies (pk js) = [])).
  { intros js P. destruct (plain_questions _ P) as (A & B & D). auto. }
  unfold jobs_of_packet. cbv zeta. destruct (content p);
    try (apply PL; plains; fail);
    try (apply (Z (Air (destination p) (source p) _)); reflexivity).
  match goal with |- context [get_features cfg s ?m] => destruct (get_features cfg s m) end; [apply (Z (Air (destination p) (source p) _)); reflexivity|apply PL, plain_nil].
Qed.
Lemma replied : forall h s now rssi p s' st out, history order2 cfg2 h s -> address s = b -> name s = nm -> host_features s = hf -> honest p ->
  step order2 cfg2 now s (Receive rssi p) = Ok (s', st, out) -> replies (pk (jobs_of order2 cfg2 (Receive rssi p) s)) = by_question p.
Proof.
  intros h s now rssi p s' st out H AD NM HF HO E. cbn [step] in E. unbind E. injection E as <- <- <-. rename E0 into E. unfold receive in E. cbn [jobs_of].
  assert (FM : for_me p s = addressed b p) by (unfold for_me, addressed; now rewrite AD). rewrite FM in *. unfold by_question.
  destruct (addressed b p) eqn:A.
  2:{ unfold addressed in A. apply orb_false_iff in A. now rewrite (proj2 A). }
  assert (BACK : forall x, is_question p = true -> replies (pk [Transmit (Air (destination p) (source p) x)]) =
    if list_eqb (destination p) b then by_reply (Air b a x) else []).
  { intros x Q. cbn [pk flat_map packet_of app replies]. rewrite app_nil_r, (HO Q). destruct (list_eqb (destination p) b) eqn:D.
    - apply list_eqb_eq in D. now rewrite D.
    - unfold by_reply. cbn [source]. now rewrite D. }
  assert (BY : forall x, by_reply (Air b a x) = by_reply (Air b a x)) by reflexivity.
  assert (SB : list_eqb (source (Air b a ClockRequest)) b && addressed a (Air b a ClockRequest) = true).
  { unfold addressed. cbn [source destination]. now rewrite !list_eqb_refl, orb_true_r. }
  assert (PL : is_question p = false -> plain_jobs (jobs_of_packet order2 cfg2 rssi p s) -> replies (pk (jobs_of_packet order2 cfg2 rssi p s)) = (if list_eqb (destination p) b then [] else [])).
  { intros _ P. destruct (plain_questions _ P) as (_ & R & _). rewrite R. now destruct (list_eqb (destination p) b). }
  destruct (is_question p) eqn:Q.
  - unfold is_question in Q. unfold jobs_of_packet. cbv zeta. unfold dispatch in E. cbv zeta in E.
    rewrite (N.mod_small _ _ small).
    destruct (content p) eqn:CO; try discriminate Q;
      try (rewrite BACK by reflexivity; destruct (list_eqb (destination p) b); auto; unfold by_reply; cbn [source destination content] in *; change (addressed a (Air b a _)) with (addressed a (Air b a ClockRequest)); rewrite SB; congruence).
    match type of E with context [receive_extended_request _ _ _ ?m _] => rename m into n end.
    unfold answering, receive_extended_request in E. destruct (heard_same now (source p) s) as (t & HE). rewrite HE in E. change (get_features cfg2 (with_acls t s) n) with (get_features cfg2 s n) in E.
    destruct (get_features cfg2 s n) as [f|] eqn:G; [|discriminate E].
    rewrite BACK by reflexivity. destruct (list_eqb (destination p) b); auto. unfold by_reply. cbn [source destination content] in *. change (addressed a (Air b a _)) with (addressed a (Air b a ClockRequest)). rewrite SB.
    unfold get_features in G. unfold lenN. rewrite pages. change (N.of_nat 3 - 1) with 2. change (N.of_nat 3) with 3. destruct (N.eqb_spec n 1) as [->|N1]; [injection G as <-; rewrite HF; reflexivity|].
    assert (LT : (N.to_nat n < 3)%nat) by (rewrite <- pages; apply nth_error_Some; congruence). rewrite (nth_error_nth _ _ 0 G). destruct (N.leb_spec 3 n); [lia|reflexivity].
  - specialize (PL eq_refl).
    assert (NQ : (if list_eqb (destination p) b then match content p with
      | NameRequest => [RemoteNameComplete SUCCESS b nm] | FeaturesRequest => [SupportedFeaturesComplete SUCCESS k (nth 0 (lmp_features cfg2) 0)]
      | LmpFeaturesRequest => [HostFeaturesNotification b hf] | ExtendedFeaturesRequest n => [ExtendedFeaturesComplete SUCCESS k n 2 (if n =? 1 then hf else nth (N.to_nat n) (lmp_features cfg2) 0)]
      | VersionRequest => [VersionComplete SUCCESS k (lmp_version cfg2) (company cfg2) (lmp_subversion cfg2)] | ClockRequest => [ClockOffsetComplete SUCCESS k 0] | _ => [] end else []) = []).
    { unfold is_question in Q. destruct (list_eqb _ _); auto. now destruct (content p). }
    rewrite NQ. rewrite PL; [now destruct (list_eqb _ _)|]. unfold is_question in Q. unfold jobs_of_packet. cbv zeta. destruct (content p); try discriminate Q; plains.
Qed.

(** ** The accounting *)
Let ready' := ready b k nm hf.
Let expect := expected b k cfg2 nm hf.
Let tell := told b k.
Lemma told_cons : forall e nl, tell (e :: nl) = tell nl ++ answers_in b k (sent e).
Proof. intros e nl. unfold tell, told. cbn [rev]. rewrite flat_map_app. cbn [flat_map]. now rewrite app_nil_r. Qed.
Lemma expected_cons : forall e nl, expect (e :: nl) = expect nl ++ match what e with Command c => true_answers b k cfg2 nm hf c | _ => [] end.
Proof. intros e nl. unfold expect, expected. cbn [rev]. rewrite flat_map_app. cbn [flat_map]. now rewrite app_nil_r. Qed.

Lemma not_questions : forall l, (forall p, In p l -> is_question p = false) -> questions l = [].
Proof.
  induction l as [|p l IH]; intros H; auto. cbn [questions flat_map]. fold (questions l). rewrite IH by (intros q I; apply H; now right). rewrite app_nil_r.
  specialize (H p (or_introl eq_refl)). unfold by_question. destruct (list_eqb _ _); auto. unfold is_question in H. now destruct (content p).
Qed.
Lemma not_replies : forall l, (forall p, In p l -> is_reply p = false) -> replies l = [].
Proof.
  induction l as [|p l IH]; intros H; auto. cbn [replies flat_map]. fold (replies l). rewrite IH by (intros q I; apply H; now right). rewrite app_nil_r.
  specialize (H p (or_introl eq_refl)). unfold by_reply. destruct (_ && _); auto. unfold is_reply in H. now destruct (content p).
Qed.

Lemma accounts : forall hl hr w0 nl nr w, settled a b w0 -> meanwhile order1 order2 cfg1 cfg2 a b ready' hl hr w0 nl nr w ->
  Forall honest (way_right b w) /\ tell nl ++ replies (way_left a w) ++ questions (way_right b w) = expect nl.
Proof.
  intros hl hr w0 nl nr w (S1 & S2) M. induction M as [R H|nl nr w e w' M (HO & IH) MV T KW|nl nr w e w' M (HO & IH) MV T KW].
  - split; [apply Forall_forall; intros p I Q; specialize (S1 p I); congruence|]. now rewrite (not_questions _ S1), (not_replies _ S2).
  - destruct (meanwhile_reaches _ _ _ _ _ _ _ _ _ _ _ _ _ M) as (R & (L & U & _)).
    destruct (reach_histories _ _ _ _ _ _ any1 any2 _ _ _ R) as (H1 & _ & _ & _ & A1 & _).
    destruct (left_way _ _ _ _ _ _ any1 any2 _ _ _ _ _ R MV T) as (_ & (extra & WR & AD) & (st & out & ST & SE & SO) & HE).
    rewrite told_cons, expected_cons, WR, questions_app, questions_filter, SE.
    assert (G : Forall honest extra /\ (what e = Tick \/ (exists rssi p, what e = Receive rssi p) -> questions extra = []) /\
       (what e <> Tick -> (forall rssi p, what e <> Receive rssi p) -> questions extra = match what e with Command c => true_answers b k cfg2 nm hf c | _ => [] end)).
    { destruct AD as [(NT & ->)|(TK & F)].
      - destruct (what e) as [c|x pb bc d|x d|rssi p|] eqn:W; try congruence.
        + cbn [jobs_of]. destruct (asks _ _ c H1 A1 L) as (Q & HN). split; auto. split; auto. intros [X|(? & ? & X)]; discriminate.
        + destruct (plain_questions _ (plain_own order1 cfg1 (AclFromHost x pb bc d) (left w) Logic.I)) as (Q & _ & HN). auto.
        + destruct (plain_questions _ (plain_own order1 cfg1 (ScoFromHost x d) (left w) Logic.I)) as (Q & _ & HN). auto.
        + cbn [jobs_of]. destruct (for_me p (left w)); [|split; [constructor|split; reflexivity]].
          destruct (receive_jobs order1 cfg1 rssi p (left w)) as (HN & Q & _). split; [exact HN|]. split; intros; exact Q.
      - split; [eapply honest_made; eauto|]. split; [intros _; eapply questions_made; eauto|]. intros X. congruence. }
    destruct G as (HN & G1 & G2). split; [apply Forall_app; split; auto; now apply honest_filter|].
    destruct (what e) as [c|x pb bc d|x d|rssi p|] eqn:W.
    + rewrite (G2 ltac:(discriminate) ltac:(discriminate)). destruct HE as [(_ & ->)|(? & ? & X & _)]; [|discriminate]. rewrite about_events, app_nil_r by (rewrite (own_silent order1 cfg1 (at_time e) (left w) (Command c) _ _ _ Logic.I ST); constructor). rewrite <- IH, <- !app_assoc. reflexivity.
    + rewrite (G2 ltac:(discriminate) ltac:(discriminate)). destruct HE as [(_ & ->)|(? & ? & X & _)]; [|discriminate]. rewrite about_events, !app_nil_r by (rewrite (own_silent order1 cfg1 (at_time e) (left w) (AclFromHost x pb bc d) _ _ _ Logic.I ST); constructor). exact IH.
    + rewrite (G2 ltac:(discriminate) ltac:(discriminate)). destruct HE as [(_ & ->)|(? & ? & X & _)]; [|discriminate]. rewrite about_events, !app_nil_r by (rewrite (own_silent order1 cfg1 (at_time e) (left w) (ScoFromHost x d) _ _ _ Logic.I ST); constructor). exact IH.
    + rewrite (G1 ltac:(eauto)), !app_nil_r. rewrite (answered _ _ _ _ _ _ _ _ H1 A1 L U ST). destruct HE as [((F1 & F2) & ->)|(rssi' & p' & [= <- <-] & WL)].
      * unfold by_reply at 1. rewrite (eqb_false _ _ F1), app_nil_r. exact IH.
      * rewrite <- IH, WL. cbn [replies flat_map]. fold (replies (way_left a w')). now rewrite <- !app_assoc.
    + rewrite (G1 ltac:(auto)), !app_nil_r. destruct HE as [(_ & ->)|(? & ? & X & _)]; [|discriminate].
      assert (TT : timely (Entry (at_time e) Tick st out :: nl ++ hl)) by (destruct e; cbn in *; subst; exact T).
      rewrite (about_late out), app_nil_r; [exact IH|]. eapply (tick_late order1 cfg1 any1); [exact H1|exact TT|exact ST].
  - destruct (meanwhile_reaches _ _ _ _ _ _ _ _ _ _ _ _ _ M) as (R & (_ & _ & NM & HF)).
    destruct (reach_histories _ _ _ _ _ _ any1 any2 _ _ _ R) as (_ & H2 & _ & _ & _ & A2).
    destruct (right_way _ _ _ _ _ _ any1 any2 _ _ _ _ _ R MV T) as (_ & (extra & WL & AD) & (st & out & ST & SE & SO) & HE).
    rewrite WL, replies_app, replies_filter.
    destruct HE as [(F & WR)|(rssi & p & W & WR)].
    + rewrite WR. split; auto. assert (Z : replies extra = []).
      { destruct AD as [(NT & ->)|(TK & G)]; [|eapply replies_made; eauto].
        destruct (what e) as [c|x pb bc d|x d|rssi p|] eqn:W; try congruence.
        - cbn [jobs_of]. destruct (asks_about c) eqn:AS; [|apply (plain_questions _ (plain_command order2 c (right w) AS))].
          assert (X : forall x bd, is_reply (Air [] [] bd) = false -> replies (pk (jobs_ask x bd (right w))) = []).
          { intros x bd Q. apply not_replies. intros q I. unfold jobs_ask in I. destruct (lookup (acls (right w)) x); [|destruct I]. destruct I as [<-|[]]. exact Q. }
          destruct c; try discriminate AS; cbn [jobs_of_command]; try (apply X; reflexivity). apply not_replies. intros q [<-|[<-|[]]]; reflexivity.
        - apply (plain_questions _ (plain_own order2 cfg2 (AclFromHost x pb bc d) (right w) Logic.I)).
        - apply (plain_questions _ (plain_own order2 cfg2 (ScoFromHost x d) (right w) Logic.I)).
        - cbn [jobs_of]. destruct (for_me p (right w)); auto. apply receive_jobs; apply F. }
      rewrite Z, app_nil_r. exact IH.
    + rewrite WR in HO. inversion HO as [|? ? HP HO']; subst. split; auto. rewrite W in ST, AD. destruct AD as [(_ & ->)|(X & _)]; [|discriminate].
      fold (pk (jobs_of order2 cfg2 (Receive rssi p) (right w))). rewrite (replied _ _ _ _ _ _ _ _ H2 A2 NM HF HP ST). rewrite <- IH, WR. cbn [questions flat_map]. fold (questions (way_right b w')). now rewrite <- !app_assoc.
Qed.
Theorem remote_answers : forall hl hr w0 nl nr w, meanwhile order1 order2 cfg1 cfg2 a b (ready b k nm hf) hl hr w0 nl nr w -> settled a b w0 ->
  exists rest, expected b k cfg2 nm hf nl = told b k nl ++ rest /\ (settled a b w -> rest = []).
Proof.
  intros hl hr w0 nl nr w M S. destruct (accounts _ _ _ _ _ _ S M) as (_ & A). eexists. split; [symmetry; exact A|].
  intros (S1 & S2). now rewrite (not_questions _ S1), (not_replies _ S2).
Qed.
End Remote.
