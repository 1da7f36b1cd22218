(** Lemmas about the HCI front end. *)
From Verif Require Import Prelude HciTables Hci HciSpec.
Open Scope N_scope.

(** ** Tables *)

Lemma assoc_in A (l : list (N * A)) k v : assoc l k = Some v -> In (k, v) l.
Proof.
  induction l as [| [x y] l IH]; simpl; [discriminate |].
  destruct (N.eqb_spec x k) as [-> | _]; [intros [= ->]; now left | intros H; right; auto].
Qed.

Lemma assoc_none A (l : list (N * A)) k : assoc l k = None -> forall v, ~ In (k, v) l.
Proof.
  induction l as [| [x y] l IH]; simpl; [intros _ v [] |].
  destruct (N.eqb_spec x k) as [-> | E]; [discriminate |].
  intros H v [F | F]; [injection F; intros; now subst | now apply (IH H v)].
Qed.

Definition table_ok (f : N * row -> bool) : Prop := forallb f handlers = true.

Lemma from_table f op r : table_ok f -> assoc handlers op = Some r -> f (op, r) = true.
Proof.
  intros T H. apply assoc_in in H. unfold table_ok in T. rewrite forallb_forall in T. now apply T.
Qed.

(** Every handler answers with the operation code of its command. *)
Lemma replies_table : table_ok (fun e => reply (snd e) =? fst e).
Proof. vm_compute. reflexivity. Qed.

Lemma reply_own op r : assoc handlers op = Some r -> reply r = op.
Proof. intros H. apply N.eqb_eq. exact (from_table _ _ _ replies_table H). Qed.

Definition mem (x : N) (l : list N) : bool := existsb (N.eqb x) l.

Lemma mem_in x l : mem x l = true <-> In x l.
Proof.
  unfold mem. rewrite existsb_exists. split.
  - intros [y [H E]]. apply N.eqb_eq in E. now subst.
  - intros H. exists x. split; [assumption | apply N.eqb_refl].
Qed.

Lemma kinds_table : table_ok (fun e =>
  match does (snd e) with
  | ToManager => mem (fst e) for_link_manager
  | ToLayer => mem (fst e) for_link_layer
  | Csr => fst e =? CSR_COMMAND
  | Disconnects => fst e =? DISCONNECT
  | Filters => fst e =? SET_EVENT_FILTER
  | GetsFeatures => (fst e =? READ_LOCAL_EXTENDED_FEATURES) && match layout (snd e) with [Fix 1] => true | _ => false end
  | IntelRead => fst e =? INTEL_READ
  | IntelWrite => fst e =? INTEL_WRITE
  | Apcf => (fst e =? LE_APCF) && match layout (snd e) with [Fix 1; Any] => true | _ => false end
  | SetsLoop => (fst e =? WRITE_LOOPBACK_MODE) && match layout (snd e) with [Fix 1] => true | _ => false end
  | GetsLoop => fst e =? READ_LOOPBACK_MODE
  | Resets => fst e =? RESET
  | Gets x => fst e =? reader x
  | Sets x => (fst e =? writer x) &&
       match layout (snd e), x with
       | [Fix n], _ => n =? size_of x
       | [Cnt 3], InquiryCodes => true
       | _, _ => false end
  | _ => true
  end).
Proof. vm_compute. reflexivity. Qed.

Lemma kind_of op r : assoc handlers op = Some r ->
  match does r with
  | ToManager => In op for_link_manager
  | ToLayer => In op for_link_layer
  | Csr => op = CSR_COMMAND
  | Disconnects => op = DISCONNECT
  | Filters => op = SET_EVENT_FILTER
  | GetsFeatures => op = READ_LOCAL_EXTENDED_FEATURES /\ layout r = [Fix 1]
  | IntelRead => op = INTEL_READ
  | IntelWrite => op = INTEL_WRITE
  | Apcf => op = LE_APCF /\ layout r = [Fix 1; Any]
  | SetsLoop => op = WRITE_LOOPBACK_MODE /\ layout r = [Fix 1]
  | GetsLoop => op = READ_LOOPBACK_MODE
  | Resets => op = RESET
  | Gets x => op = reader x
  | Sets x => op = writer x /\ (layout r = [Fix (size_of x)] \/ layout r = [Cnt 3] /\ x = InquiryCodes)
  | _ => True
  end.
Proof.
  intros H. generalize (from_table _ _ _ kinds_table H). cbn [fst snd].
  destruct (does r); try exact (fun _ => I); try (intros E; now apply N.eqb_eq in E);
    try (intros E; now apply mem_in in E);
    intros E; apply andb_true_iff in E; destruct E as [E F]; apply N.eqb_eq in E; (split; [exact E |]);
    destruct (layout r) as [| i l]; try discriminate; destruct i as [n | n | | | n | n |]; try discriminate.
  - destruct l; [| destruct n as [| [? | ? |]]; try discriminate; destruct p; discriminate].
    left. apply N.eqb_eq in F. now subst.
  - destruct n as [| [[? | ? |] | ? |]]; try discriminate. destruct l; try discriminate.
    destruct s; try discriminate. right. now split.
  - destruct n as [| [? | ? |]]; try discriminate. now destruct l.
  - destruct n as [| [? | ? |]]; try discriminate. now destruct l.
  - destruct n as [| [? | ? |]]; try discriminate. destruct l as [| i l]; try discriminate.
    destruct i; try discriminate. now destruct l.
Qed.

(** ** Answers *)

Lemma answers_app l m : answers (l ++ m) = answers l ++ answers m.
Proof.
  induction l as [| e l IH]; [reflexivity |].
  destruct e as [e | | | | | | | | | |]; try exact IH.
  destruct e; cbn; try exact IH; now rewrite IH.
Qed.

Lemma answers_raised (l : list (N * list N)) : answers (map (fun e => Event (Other (fst e) (snd e))) l) = [].
Proof. induction l; [reflexivity | assumption]. Qed.

Lemma lenN_firstn n (b : list N) : n <= lenN b -> lenN (firstn (N.to_nat n) b) = n.
Proof. unfold lenN. intros H. rewrite firstn_length_le; lia. Qed.

Section Any.

Variable W : Type.
Variable inner : N -> list N -> W -> option (answer W).
Variable exact : bool.

Notation command := (command W inner exact).
Notation serve := (serve W inner exact).
Notation parse := (parse exact).
Notation fits := (fits exact).
Notation step := (step W inner exact).
Notation ran := (ran W inner exact).
Notation Done := (Done W).
Notation Abort := (Abort W).
Notation Undefined := (Undefined W).
Notation alive := (alive W).

(** ** Parsing *)

Lemma parse_some p op b : parse p = Some (op, b) -> op = opcode p /\ b = parameters p.
Proof.
  unfold Hci.parse, opcode, parameters.
  destruct p as [| lo [| hi [| n rest]]]; try discriminate.
  destruct (lenN rest <? n); [discriminate |].
  destruct (exact && (n <? lenN rest)); [discriminate |].
  intros [= <- <-]. split; reflexivity.
Qed.

Lemma parse_framed p op b : parse p = Some (op, b) -> well_framed p.
Proof.
  unfold Hci.parse, well_framed.
  destruct p as [| lo [| hi [| n rest]]]; try discriminate.
  destruct (N.ltb_spec (lenN rest) n); [discriminate |].
  intros _. rewrite !lenN_cons. cbn [nth]. lia.
Qed.

Lemma packet_parses op b : op < 65536 -> lenN b < 256 -> parse (packet op b) = Some (op, b).
Proof.
  intros O L. unfold Hci.parse, packet.
  rewrite (proj2 (N.ltb_ge (lenN b) (lenN b))) by lia.
  rewrite andb_false_r. f_equal. f_equal.
  - unfold le16. cbn [nth]. generalize (N.div_mod op 256). lia.
  - unfold take, lenN. rewrite Nat2N.id. apply firstn_all.
Qed.

(** ** Dispatch *)

(** What HandleCommand does with a command it executes. *)
Lemma executed c s p op b :
  parse p = Some (op, b) -> operational c s ->
  command c s p =
    match supported c op, assoc handlers op with
    | true, Some r =>
        if checked (does r) && negb ((op =? view r) && fits (layout r) b) then invalid W c s p
        else serve c s (does r) op b p
    | true, None => if strict c then Abort [] else Done s [unknown op]
    | false, _ => Done s [unknown op]
    end.
Proof.
  intros P [M Q]. unfold Hci.command. rewrite P.
  assert (L : looped W s op = false)
    by (unfold looped, ENABLE_LOCAL; now rewrite (proj2 (N.eqb_neq _ _) M)).
  rewrite L.
  assert (E : error_before_reset c && negb (was_reset W s) && negb (op =? RESET) = false)
    by (destruct Q as [-> | ->]; [reflexivity | now rewrite andb_false_r]).
  rewrite E. destruct (supported c op); [| reflexivity].
  destruct (assoc handlers op) as [r |] eqn:A; [| reflexivity].
  now rewrite (reply_own op r A).
Qed.

Lemma ask_answers s op b f s' l : (forall a, answers (f a) = [(op, 1)]) ->
  ask W inner s op b f = Done s' l -> answers l = [(op, 1)].
Proof.
  intros F. unfold ask. destruct (inner op b (world W s)); [| discriminate].
  intros [= <- <-]. now rewrite answers_app, answers_raised, F.
Qed.

(** Apart from the delegated commands and the invalid packets, one answer. *)
Lemma served_once c s k op b p s' l :
  serve c s k op b p = Done s' l ->
  k <> ToManager -> k <> ToLayer -> k <> Csr ->
  (k = Disconnects -> is_cis (le16 b mod 4096) = false) ->
  no_complaint l -> answers l = [(op, 1)].
Proof.
  intros H Nm Nl Nc Nd Ni. destruct k; cbn [Hci.serve] in H; try contradiction.
  - revert H. now apply ask_answers.
  - revert H. now apply ask_answers.
  - now injection H as <- <-.
  - now injection H as <- <-.
  - now injection H as <- <-.
  - destruct (accepted c s0 b); [| now injection H as <- <-].
    destruct (inner op b (world W s)); [| discriminate]. now injection H as <- <-.
  - rewrite (Nd eq_refl) in H.
    destruct (_ || _); [revert H; now apply ask_answers | now injection H as <- <-].
  - now injection H as <- <-.
  - destruct (inner op b (world W s)) as [a |]; [| discriminate]. injection H as <- <-.
    now destruct (status W a =? 0).
  - destruct (inner op b (world W s)) as [a |]; [| discriminate]. injection H as <- <-.
    now destruct (status W a =? 0).
  - destruct (inner op b (world W s)) as [a |]; [| discriminate]. now injection H as <- <-.
  - destruct (nth 0 b 0 =? 0); [now injection H as <- <- | discriminate].
  - now injection H as <- <-.
  - now injection H as <- <-.
  - destruct (inner op b (world W s)) as [a |]; [| discriminate]. now injection H as <- <-.
  - destruct (3 <=? nth 0 b 0); [discriminate |]. revert H. now apply ask_answers.
  - now injection H as <- <-.
  - unfold injects, invalid in H.
    repeat match type of H with context [if ?x then _ else _] => destruct x end; try discriminate;
      injection H as <- <-; try reflexivity; destruct Ni.
  - destruct (negb (has_apcf c)); [now injection H as <- <- |].
    unfold apcf, invalid in H. destruct (apcf_layout (nth 0 b 0)).
    + destruct (negb (fits l0 b)); [destruct (tolerant c); [| discriminate]; injection H as <- <-; destruct Ni |].
      destruct (apcf_asserts exact b); [discriminate |]. revert H. now apply ask_answers.
    + destruct (tolerant c); [| discriminate]. injection H as <- <-. destruct Ni.
  - unfold intel_read in H. destruct (negb (lenN b =? 2)); [discriminate |].
    destruct (le16 b =? 0x0204); now injection H as <- <-.
  - unfold intel_write in H. destruct (negb (ddc _ b)); [discriminate |].
    destruct (inner op b (world W s)); [| discriminate]. now injection H as <- <-.
  - destruct (negb (has_capabilities c)); [now injection H as <- <- |]. revert H. now apply ask_answers.
Qed.

Lemma cis_spec b : is_cis (le16 b mod 4096) = true <-> (opcode b mod 4096) / 256 = 0xe.
Proof.
  unfold is_cis, opcode, le16. set (h := _ mod 4096).
  assert (h < 4096) by (apply N.mod_lt; discriminate).
  generalize (N.div_mod h 256) (N.mod_lt h 256). generalize (h / 256) (h mod 256). intros q r E L.
  rewrite andb_true_iff, !N.leb_le. lia.
Qed.

(** An executed command which is not delegated and not reported as invalid has
    exactly one answer. *)
Lemma command_once c s p s' l :
  command c s p = Done s' l -> operational c s -> own_request p -> no_complaint l ->
  answers l = [(opcode p, 1)].
Proof.
  intros H O [Lm [Ll [Lc Ld]]] Ni.
  destruct (parse p) as [[op b] |] eqn:P.
  - destruct (parse_some _ _ _ P) as [Eo Eb]. rewrite (executed c s p op b P O) in H.
    rewrite <- Eo in *. destruct (supported c op); [| now injection H as <- <-].
    destruct (assoc handlers op) as [r |] eqn:A.
    + generalize (kind_of op r A). intros K.
      destruct (checked (does r) && _).
      * unfold invalid in H. destruct (tolerant c); [| discriminate]. injection H as <- <-. destruct Ni.
      * apply (served_once c s (does r) op b p s' l H); try assumption;
          try (intros E; rewrite E in K; contradiction).
        intros E. rewrite E in K. destruct (is_cis _) eqn:C; [| reflexivity].
        exfalso. apply Ld. unfold ends_stream. rewrite <- Eo, <- Eb. split; [exact K | now apply cis_spec].
    + destruct (strict c); [discriminate |]. now injection H as <- <-.
  - unfold Hci.command in H. rewrite P in H. unfold invalid in H.
    destruct (tolerant c); [| discriminate]. injection H as <- <-. destruct Ni.
Qed.

(** ** Modes *)

Lemma data_keeps c s i s' l : step c s i = Done s' l ->
  match i with Command _ => True | _ => s' = s end.
Proof.
  destruct i as [p | p | p]; [trivial | |]; cbn [Hci.step].
  - unfold acl_data. destruct (acl_parse exact p) as [[[[h pb] bc] d] |].
    + destruct (mode W s =? _); [congruence |]. destruct (is_acl h); [congruence |].
      destruct (is_le_acl h); congruence.
    + unfold invalid. destruct (tolerant c); congruence.
  - unfold sco_data. destruct (sco_parse exact p) as [[[h f] d] |].
    + destruct (mode W s =? _); congruence.
    + unfold invalid. destruct (tolerant c); congruence.
Qed.

Lemma data_answers c s i s' l : step c s i = Done s' l ->
  match i with Command _ => True | _ => answers l = [] end.
Proof.
  destruct i as [p | p | p]; [trivial | |]; cbn [Hci.step].
  - unfold acl_data. destruct (acl_parse exact p) as [[[[h pb] bc] d] |].
    + destruct (mode W s =? _); [now intros [= <- <-] |]. destruct (is_acl h); [now intros [= <- <-] |].
      destruct (is_le_acl h); now intros [= <- <-].
    + unfold invalid. destruct (tolerant c); [now intros [= <- <-] | discriminate].
  - unfold sco_data. destruct (sco_parse exact p) as [[[h f] d] |].
    + destruct (mode W s =? _); [| now intros [= <- <-]]. destruct (list_eqb _ _); now intros [= <- <-].
    + unfold invalid. destruct (tolerant c); [now intros [= <- <-] | discriminate].
Qed.

(** What a served command does to the mode, the reset flag and the settings. *)
Lemma ask_keeps s op b f s' l : ask W inner s op b f = Done s' l ->
  mode W s' = mode W s /\ was_reset W s' = was_reset W s /\ kept W s' = kept W s.
Proof.
  unfold ask. destruct (inner op b (world W s)); [| discriminate]. now intros [= <- <-].
Qed.

Lemma served_state c s k op b p s' l : serve c s k op b p = Done s' l ->
  match k with
  | Sets x =>
      mode W s' = mode W s /\ was_reset W s' = was_reset W s /\
      ((exists v, accepted c x b = Some v /\ kept W s' = store (kept W s) x v /\
                  l = [complete op [SUCCESS]]) \/
       (accepted c x b = None /\ kept W s' = kept W s /\
        l = [complete op [INVALID_HCI_COMMAND_PARAMETERS]]))
  | SetsLoop =>
      mode W s' = nth 0 b 0 /\ was_reset W s' = was_reset W s /\ kept W s' = kept W s
  | Resets => mode W s' = 0 /\ was_reset W s' = true /\ kept W s' = after_reset /\ l = [complete op [SUCCESS]]
  | _ => mode W s' = mode W s /\ was_reset W s' = was_reset W s /\ kept W s' = kept W s
  end.
Proof.
  intros H. destruct k; cbn [Hci.serve] in H;
    try (now injection H as <- <-);
    try (now apply ask_keeps in H).
  - destruct (accepted c s0 b) as [v |].
    + destruct (inner op b (world W s)); [| discriminate]. injection H as <- <-.
      split; [reflexivity |]. split; [reflexivity |]. left. exists v. now split.
    + injection H as <- <-. split; [reflexivity |]. split; [reflexivity |]. right. now split.
  - destruct (is_cis _); [now injection H as <- <- |].
    destruct (_ || _); [now apply ask_keeps in H | now injection H as <- <-].
  - destruct (inner op b (world W s)); [| discriminate]. now injection H as <- <-.
  - destruct (inner op b (world W s)); [| discriminate]. now injection H as <- <-.
  - destruct (inner op b (world W s)); [| discriminate]. now injection H as <- <-.
  - destruct (nth 0 b 0 =? 0); [now injection H as <- <- | discriminate].
  - destruct (inner op b (world W s)); [| discriminate]. now injection H as <- <-.
  - destruct (3 <=? nth 0 b 0); [discriminate |]. now apply ask_keeps in H.
  - unfold injects, invalid in H.
    repeat match type of H with context [if ?x then _ else _] => destruct x end; try discriminate;
      now injection H as <- <-.
  - destruct (negb (has_apcf c)); [now injection H as <- <- |].
    unfold apcf, invalid in H. destruct (apcf_layout (nth 0 b 0)).
    + destruct (negb (fits l0 b)); [destruct (tolerant c); [| discriminate]; now injection H as <- <- |].
      destruct (apcf_asserts exact b); [discriminate |]. now apply ask_keeps in H.
    + destruct (tolerant c); [| discriminate]. now injection H as <- <-.
  - unfold csr in H. destruct (negb (has_csr c)); [now injection H as <- <- |].
    destruct (csr_access b); [| discriminate]. destruct (lenN l0 <? 3); [discriminate |].
    destruct (inner op b (world W s)); [| discriminate]. now injection H as <- <-.
  - unfold intel_read in H. destruct (negb (lenN b =? 2)); [discriminate |].
    destruct (le16 b =? 0x0204); now injection H as <- <-.
  - unfold intel_write in H. destruct (negb (ddc _ b)); [discriminate |].
    destruct (inner op b (world W s)); [| discriminate]. now injection H as <- <-.
  - destruct (negb (has_capabilities c)); [now injection H as <- <- |]. now apply ask_keeps in H.
Qed.

(** The shapes of what a command does. *)
Lemma command_shape c s p s' l : command c s p = Done s' l ->
  (s' = s /\ (l = [Event (HardwareError 0x43); InvalidPacket p] \/ l = [Event (LoopbackCommand p)] /\ mode W s = 1 /\ ~ In (opcode p) never_looped \/
              l = [Event (HardwareError 0x42)] \/ l = [unknown (opcode p)])) \/
  (exists r, assoc handlers (opcode p) = Some r /\ supported c (opcode p) = true /\
             (mode W s <> 1 \/ In (opcode p) never_looped) /\
             (checked (does r) = true -> fits (layout r) (parameters p) = true) /\
             serve c s (does r) (opcode p) (parameters p) p = Done s' l).
Proof.
  unfold Hci.command. destruct (parse p) as [[op b] |] eqn:P.
  - destruct (parse_some _ _ _ P) as [-> ->].
    destruct (looped W s (opcode p)) eqn:L.
    + intros [= <- <-]. left. split; [reflexivity |]. right. left.
      unfold looped in L. apply andb_true_iff in L. destruct L as [L1 L2].
      split; [reflexivity |]. split; [now apply N.eqb_eq |].
      intros F. apply mem_in in F. unfold mem, never_looped in F. unfold RESET, SET_CONTROLLER_TO_HOST_FLOW_CONTROL,
        HOST_BUFFER_SIZE, HOST_NUMBER_OF_COMPLETED_PACKETS, READ_BUFFER_SIZE, READ_LOOPBACK_MODE, WRITE_LOOPBACK_MODE in L2.
      rewrite F in L2. discriminate.
    + destruct (error_before_reset c && negb (was_reset W s) && negb (opcode p =? RESET)).
      * intros [= <- <-]. left. split; [reflexivity |]. right. right. now left.
      * destruct (supported c (opcode p)) eqn:Sp.
        -- destruct (assoc handlers (opcode p)) as [r |] eqn:A.
           ++ destruct (checked (does r) && negb ((opcode p =? view r) && fits (layout r) (parameters p))) eqn:V.
              ** unfold invalid. destruct (tolerant c); [| discriminate]. intros [= <- <-]. left.
                 split; [reflexivity | now left].
              ** rewrite (reply_own _ _ A). intros H. right. exists r.
                 split; [reflexivity |]. split; [reflexivity |]. split.
                 { unfold looped in L. apply andb_false_iff in L. destruct L as [L | L].
                   - left. now apply N.eqb_neq.
                   - right. apply negb_false_iff in L. now apply mem_in in L. }
                 split; [| exact H].
                 intros C. rewrite C in V. cbn in V. apply negb_false_iff, andb_true_iff in V. apply V.
           ++ destruct (strict c); [discriminate |]. intros [= <- <-]. left.
              split; [reflexivity |]. right. right. now right.
        -- intros [= <- <-]. left. split; [reflexivity |]. right. right. now right.
  - unfold invalid. destruct (tolerant c); [| discriminate]. intros [= <- <-]. left. split; [reflexivity | now left].
Qed.

Lemma fits_fix1 b : fits [Fix 1] b = true -> 1 <= lenN b.
Proof.
  unfold Hci.fits. cbn [read]. destruct (N.ltb_spec (lenN b) 1); [discriminate | lia].
Qed.

(** ** Answers over a history *)

Lemma operational_step c s i s' l : step c s i = Done s' l -> error_before_reset c = false ->
  mode W s <> 1 -> match i with Command p => ~ enters_loopback p | _ => True end -> mode W s' <> 1.
Proof.
  intros H Q M L. destruct i as [p | p | p]; try (apply data_keeps in H; now subst).
  cbn [Hci.step] in H. apply command_shape in H. destruct H as [[-> _] | [r [A [_ [_ [F H]]]]]]; [exact M |].
  apply served_state in H. generalize (kind_of _ _ A). intros K.
  destruct (does r); try (destruct H as [-> _]; exact M).
  - intros E. apply L. destruct K as [K _]. split; [exact K |]. destruct H as [H _]. congruence.
  - destruct H as [-> _]. discriminate.
Qed.

Lemma history_answers c s h t : ran c s h t -> error_before_reset c = false -> mode W s <> 1 ->
  Forall ordinary h -> answers (all_effects h) = expected h.
Proof.
  intros R Q. induction R as [s | s i l s' h t H R IH]; intros M F; [reflexivity |].
  apply Forall_cons_iff in F. destruct F as [O F].
  cbn [all_effects flat_map snd]. fold (all_effects h). rewrite answers_app.
  assert (M' : mode W s' <> 1).
  { apply (operational_step c s i s' l H Q M). destruct i; [apply O | trivial | trivial]. }
  rewrite (IH M' F). destruct i as [p | p | p].
  - destruct O as [O [_ Ni]]. cbn [expected].
    rewrite (command_once c s p s' l H); [reflexivity | split; [exact M | now left] | exact O | exact Ni].
  - cbn [expected]. apply data_answers in H. now rewrite H.
  - cbn [expected]. apply data_answers in H. now rewrite H.
Qed.

Lemma started_history_answers c w h t : ran c (start W c w) h t -> error_before_reset c = false ->
  Forall ordinary h -> answers (all_effects h) = expected h.
Proof. intros R Q. apply (history_answers c _ h t R Q). discriminate. Qed.

Lemma framed_parses p : well_framed p -> (exact = true -> lenN p = 3 + nth 2 p 0) ->
  parse p = Some (opcode p, parameters p).
Proof.
  unfold well_framed, Hci.parse. intros F E.
  destruct p as [| lo [| hi [| n rest]]];
    try (exfalso; rewrite ?lenN_cons, ?lenN_nil in F; cbn [nth] in F; unfold lenN in F; cbn in F; lia).
  assert (L : lenN (lo :: hi :: n :: rest) = 3 + lenN rest) by (rewrite !lenN_cons; lia).
  rewrite L in F, E. cbn [nth] in F, E.
  destruct (N.ltb_spec (lenN rest) n); [exfalso; lia |].
  destruct exact; cbn [andb]; [| reflexivity].
  destruct (N.ltb_spec n (lenN rest)); [exfalso; specialize (E eq_refl); lia | reflexivity].
Qed.

(** Delegated commands are passed on unchanged when supported. *)
Lemma delegated_kind l k : forallb (fun op => match assoc handlers op with
                            | Some r => match does r, k with ToManager, ToManager | ToLayer, ToLayer => true | _, _ => false end
                            | None => false end) l = true ->
  forall op, In op l -> exists r, assoc handlers op = Some r /\ does r = k /\ checked k = false.
Proof.
  intros T op I. rewrite forallb_forall in T. specialize (T _ I).
  destruct (assoc handlers op) as [r |]; [| discriminate]. exists r. split; [reflexivity |].
  destruct (does r); try discriminate; destruct k; try discriminate; now split.
Qed.

Lemma to_manager c s p : well_framed p -> (exact = true -> lenN p = 3 + nth 2 p 0) -> operational c s ->
  In (opcode p) for_link_manager ->
  command c s p = Done s [if supported c (opcode p) then ToLinkManager p else unknown (opcode p)].
Proof.
  intros F E O I.
  assert (P := framed_parses p F E).
  rewrite (executed c s p _ _ P O).
  destruct (delegated_kind for_link_manager ToManager ltac:(vm_compute; reflexivity) _ I) as [r [-> [D C]]].
  rewrite D, C. now destruct (supported c (opcode p)).
Qed.

Lemma to_layer c s p : well_framed p -> (exact = true -> lenN p = 3 + nth 2 p 0) -> operational c s ->
  In (opcode p) for_link_layer ->
  command c s p = Done s [if supported c (opcode p) then ToLinkLayer p else unknown (opcode p)].
Proof.
  intros F E O I.
  assert (P := framed_parses p F E).
  rewrite (executed c s p _ _ P O).
  destruct (delegated_kind for_link_layer ToLayer ltac:(vm_compute; reflexivity) _ I) as [r [-> [D C]]].
  rewrite D, C. now destruct (supported c (opcode p)).
Qed.

Lemma lenN_drop n (b : list N) : n <= lenN b -> lenN (drop n b) = lenN b - n.
Proof. unfold lenN, drop. intros H. rewrite skipn_length. lia. Qed.

(** A connected isochronous stream is disconnected by the link layer; a handle of no kind is
    refused *)
Lemma disconnects c s p h : well_framed p -> (exact = true -> lenN p = 3 + nth 2 p 0) -> operational c s ->
  opcode p = 0x0406 -> supported c 0x0406 = true -> lenN (parameters p) = 3 -> h = le16 (parameters p) mod 4096 ->
  (0xe00 <= h <= 0xeff -> command c s p = Done s [ToLinkLayer p]) /\
  (0x2ff < h -> h < 0xe00 \/ 0xeff < h -> command c s p = Done s [Event (CommandStatus 2 1 0x0406)]) /\
  (h <= 0x2ff -> forall a, inner 0x0406 (parameters p) (world W s) = Some a ->
    command c s p = Done {| mode := mode W s; was_reset := was_reset W s; kept := kept W s; world := next W a |}
      (map (fun e => Event (Other (fst e) (snd e))) (raised W a) ++ [Event (CommandStatus (status W a) 1 0x0406)])).
Proof.
  intros F E O I S L ->. assert (P := framed_parses p F E). rewrite (executed c s p _ _ P O), I, S.
  replace (assoc handlers 0x0406) with (Some {| view := 0x0406; layout := [Fix 3]; reply := 0x0406; does := Disconnects |}) by (vm_compute; reflexivity).
  cbn [does view layout checked]. assert (X : fits [Fix 3] (parameters p) = true) by (unfold fits; cbn; rewrite L; change (3 <? 3) with false; cbn iota; change (skipn (Pos.to_nat 3) (parameters p)) with (drop 3 (parameters p)); rewrite lenN_drop, L by lia; now destruct exact).
  change (0x0406 =? 0x0406) with true. rewrite X. cbn [andb negb serve]. set (h := le16 (parameters p) mod 4096).
  unfold is_cis, is_acl, is_sco, is_le_acl. split; [|split].
  - intros H. now replace ((0xe00 <=? h) && (h <=? 0xeff)) with true by lia.
  - intros H1 H2. replace ((0xe00 <=? h) && (h <=? 0xeff)) with false by lia.
    match goal with |- (if ?b then _ else _) = _ => replace b with false by lia end. reflexivity.
  - intros H a A. replace ((0xe00 <=? h) && (h <=? 0xeff)) with false by lia.
    match goal with |- (if ?b then _ else _) = _ => replace b with true by lia end.
    unfold ask. rewrite A. reflexivity.
Qed.

(** ** Crashes *)

Lemma skipn_nth (b : list N) i j : nth j (skipn i b) 0 = nth (i + j) b 0.
Proof.
  revert b. induction i as [| i IH]; intros b; [reflexivity |].
  destruct b as [| x b]; [cbn; now destruct j | cbn; apply IH].
Qed.

Lemma word_field b i : word b (N.of_nat i) = field b i.
Proof.
  unfold word, field, le16, drop. rewrite Nat2N.id, !skipn_nth.
  now rewrite Nat.add_0_r, Nat.add_1_r.
Qed.


Lemma ddc_records fuel b : (length b <= fuel)%nat -> ddc fuel b = true <-> records b.
Proof.
  revert b. induction fuel as [| f IH]; intros b L.
  - destruct b; [| cbn in L; lia]. split; [constructor | reflexivity].
  - destruct b as [| n b]; [split; [constructor | reflexivity] |].
    cbn [ddc]. rewrite !andb_true_iff, !N.leb_le. split.
    + intros [[H1 H2] H3].
      assert (E : b = take n b ++ drop n b) by (symmetry; apply firstn_skipn).
      assert (F : lenN (take n b) = n) by (now apply lenN_firstn).
      rewrite E. rewrite <- F at 1. constructor; [lia |].
      apply IH; [| exact H3]. unfold drop. rewrite skipn_length. cbn in L. lia.
    + intros R. inversion R as [| r b' H1 H2 E1]. subst n.
      split; [split; [assumption | rewrite lenN_app; lia] |].
      assert (D : drop (lenN r) (r ++ b') = b').
      { unfold drop, lenN. rewrite Nat2N.id, skipn_app, skipn_all, Nat.sub_diag. reflexivity. }
      rewrite D. apply IH; [| assumption].
      cbn in L. subst b. rewrite app_length in L. lia.
Qed.

Lemma mod16 x n : n < 65536 -> (exists k, n + 65536 * k = x) <-> x mod 65536 = n.
Proof.
  intros L. split.
  - intros [k <-]. rewrite N.mul_comm, N.mod_add by discriminate. now apply N.mod_small.
  - intros <-. exists (x / 65536). generalize (N.div_mod x 65536). lia.
Qed.

Definition size1 (b : list N) : N := (2 * (field b 3 + 65536 - 5)) mod 65536.
Definition size2 (b : list N) : N := (2 * field b 13) mod 65536.

Lemma csr_value_iff b n : csr_value b n <->
  nth 0 b 0 = 0xc2 /\ 11 <= lenN b /\ n = size1 b /\ 11 + size1 b <= lenN b.
Proof.
  unfold csr_value.
  assert (L1 : size1 b < 65536) by (apply N.mod_lt; discriminate).
  split.
  - intros [H1 [H2 [H3 [[k H4] H5]]]].
    assert (size1 b = n).
    { apply (mod16 _ n H3). exists k. lia. }
    subst n. auto.
  - intros [H1 [H2 [-> H5]]]. split; [exact H1 |]. split; [exact H2 |]. split; [exact L1 |]. split; [| exact H5].
    destruct (proj2 (mod16 (2 * (field b 3 + 65536 - 5)) (size1 b) L1) eq_refl) as [k K].
    exists k. lia.
Qed.

Lemma csr_key_iff b key n : csr_key b key n <->
  nth 0 b 0 = 0xc2 /\ 11 <= lenN b /\ 11 + size1 b <= lenN b /\ 6 <= size1 b /\
  field b 7 = 0x7003 /\ field b 11 = key /\ n = size2 b /\ 17 + size2 b <= lenN b.
Proof.
  unfold csr_key.
  assert (L2 : size2 b < 65536) by (apply N.mod_lt; discriminate).
  split.
  - intros [[m [V M]] [H1 [H2 [H3 [E H5]]]]]. apply csr_value_iff in V. destruct V as [V1 [V2 [-> V3]]].
    assert (size2 b = n) by (now apply mod16). subst n. repeat (split; [assumption |]). now split.
  - intros [V1 [V2 [V3 [V4 [H1 [H2 [-> H5]]]]]]].
    split; [exists (size1 b); split; [apply csr_value_iff; auto | assumption] |].
    split; [assumption |]. split; [assumption |]. split; [assumption |]. split; [now apply mod16 | assumption].
Qed.

Lemma csr_access_eq b : csr_access b =
  (if negb (nth 0 b 0 =? 0xc2) || (lenN b <? 11) then Some b
   else if (lenN b <? 11 + size1 b) || ((field b 7 =? CSR_VARID_PS) && (size1 b <? 6)) then Some b
   else if field b 7 =? CSR_VARID_PS then
     if lenN b <? 17 + size2 b then Some b
     else if field b 1 =? 0 then option_map (overwrite b 17) (csr_read_pskey (field b 11) (size2 b))
     else option_map (fun _ => b) (csr_write_pskey (field b 11) (size2 b))
   else if field b 1 =? 0 then option_map (overwrite b 11) (csr_read_varid (field b 7) (size1 b))
   else Some b).
Proof.
  unfold csr_access.
  rewrite (word_field b 1 : word b 1 = _), (word_field b 3 : word b 3 = _), (word_field b 7 : word b 7 = _),
    (word_field b 11 : word b 11 = _), (word_field b 13 : word b 13 = _).
  reflexivity.
Qed.

Lemma csr_dies b : csr_access b = None <-> csr_too_small b.
Proof.
  rewrite csr_access_eq. unfold csr_too_small, CSR_VARID_PS.
  assert (V : forall n, csr_value b n <-> _) by (intros n; apply csr_value_iff).
  assert (K : forall key n, csr_key b key n <-> _) by (intros key n; apply csr_key_iff).
  destruct (N.eqb_spec (nth 0 b 0) 0xc2) as [H0 | H0]; cbn [negb orb].
  2: { split; [discriminate |]. intros [[_ [_ [n [H _]]]] | [[_ [key [n [H _]]]] | [_ [n [H _]]]]].
       - apply V in H. tauto.
       - apply K in H. tauto.
       - apply K in H. tauto. }
  destruct (N.ltb_spec (lenN b) 11) as [H1 | H1].
  { split; [discriminate |]. intros [[_ [_ [n [H _]]]] | [[_ [key [n [H _]]]] | [_ [n [H _]]]]].
       - apply V in H. lia.
       - apply K in H. lia.
       - apply K in H. lia. }
  destruct (N.ltb_spec (lenN b) (11 + size1 b)) as [H2 | H2]; cbn [orb].
  { split; [discriminate |]. intros [[_ [_ [n [H _]]]] | [[_ [key [n [H _]]]] | [_ [n [H _]]]]].
       - apply V in H. lia.
       - apply K in H. lia.
       - apply K in H. lia. }
  destruct (N.eqb_spec (field b 7) 0x7003) as [H3 | H3]; cbn [andb].
  - destruct (N.ltb_spec (size1 b) 6) as [H4 | H4].
    { split; [discriminate |]. intros [[_ [E _]] | [[_ [key [n [H _]]]] | [_ [n [H _]]]]].
       - rewrite H3 in E. discriminate.
       - apply K in H. lia.
       - apply K in H. lia. }
    destruct (N.ltb_spec (lenN b) (17 + size2 b)) as [H5 | H5].
    { split; [discriminate |]. intros [[_ [E _]] | [[_ [key [n [H _]]]] | [_ [n [H _]]]]].
       - rewrite H3 in E. discriminate.
       - apply K in H. lia.
       - apply K in H. lia. }
    assert (KK : csr_key b (field b 11) (size2 b)).
    { apply K. repeat (split; [first [assumption | reflexivity] |]). assumption. }
    destruct (N.eqb_spec (field b 1) 0) as [H6 | H6].
    + unfold csr_read_pskey, CSR_PSKEY_ENC_KEY_LMIN, CSR_PSKEY_ENC_KEY_LMAX, CSR_PSKEY_HCI_LMP_LOCAL_VERSION.
      destruct (N.eqb_spec (field b 11) 0x00da) as [H7 | H7].
      { destruct (N.eqb_spec (size2 b) 0) as [H8 | H8]; cbn [option_map].
        - split; [intros _ | reflexivity]. right. left. split; [exact H6 |]. exists (field b 11), (size2 b).
          split; [exact KK |]. left. split; [now left | lia].
        - split; [discriminate |]. intros [[_ [E _]] | [[_ [key [n [H E]]]] | [E _]]]; [congruence | | congruence].
          apply K in H. destruct H as [_ [_ [_ [_ [_ [<- [-> _]]]]]]]. rewrite H7 in E. lia. }
      destruct (N.eqb_spec (field b 11) 0x00db) as [H8 | H8].
      { destruct (N.eqb_spec (size2 b) 0) as [H9 | H9]; cbn [option_map].
        - split; [intros _ | reflexivity]. right. left. split; [exact H6 |]. exists (field b 11), (size2 b).
          split; [exact KK |]. left. split; [now right | lia].
        - split; [discriminate |]. intros [[_ [E _]] | [[_ [key [n [H E]]]] | [E _]]]; [congruence | | congruence].
          apply K in H. destruct H as [_ [_ [_ [_ [_ [<- [-> _]]]]]]]. rewrite H8 in E. lia. }
      destruct (N.eqb_spec (field b 11) 0x010d) as [H9 | H9].
      { destruct (N.ltb_spec (size2 b) 2) as [H10 | H10]; cbn [option_map].
        - split; [intros _ | reflexivity]. right. left. split; [exact H6 |]. exists (field b 11), (size2 b).
          split; [exact KK |]. right. split; [assumption | lia].
        - split; [discriminate |]. intros [[_ [E _]] | [[_ [key [n [H E]]]] | [E _]]]; [congruence | | congruence].
          apply K in H. destruct H as [_ [_ [_ [_ [_ [<- [-> _]]]]]]]. rewrite H9 in E. lia. }
      cbn [option_map]. split; [discriminate |].
      intros [[_ [E _]] | [[_ [key [n [H E]]]] | [E _]]]; [congruence | | congruence].
      apply K in H. destruct H as [_ [_ [_ [_ [_ [<- _]]]]]]. tauto.
    + unfold csr_write_pskey, CSR_PSKEY_LOCAL_SUPPORTED_FEATURES.
      destruct (N.eqb_spec (field b 11) 0x00ef) as [H7 | H7].
      * destruct (N.ltb_spec (size2 b) 8) as [H8 | H8]; cbn [option_map].
        -- split; [intros _ | reflexivity]. right. right. split; [exact H6 |]. exists (size2 b).
           split; [now rewrite <- H7 | assumption].
        -- split; [discriminate |]. intros [[E _] | [[E _] | [_ [n [H E]]]]]; [congruence | congruence |].
           apply K in H. destruct H as [_ [_ [_ [_ [_ [_ [-> _]]]]]]]. lia.
      * cbn [option_map]. split; [discriminate |]. intros [[E _] | [[E _] | [_ [n [H E]]]]]; [congruence | congruence |].
        apply K in H. tauto.
  - destruct (N.eqb_spec (field b 1) 0) as [H6 | H6].
    + unfold csr_read_varid, CSR_VARID_BUILDID.
      destruct (N.eqb_spec (field b 7) 0x2819) as [H7 | H7].
      * destruct (N.ltb_spec (size1 b) 2) as [H8 | H8]; cbn [option_map].
        -- split; [intros _ | reflexivity]. left. split; [exact H6 |]. split; [exact H7 |].
           exists (size1 b). split; [apply V; auto | assumption].
        -- split; [discriminate |]. intros [[_ [_ [n [H E]]]] | [[_ [key [n [H E]]]] | [E _]]]; [| | congruence].
           ++ apply V in H. destruct H as [_ [_ [-> _]]]. lia.
           ++ apply K in H. tauto.
      * cbn [option_map]. split; [discriminate |]. intros [[_ [E _]] | [[_ [key [n [H E]]]] | [E _]]]; [congruence | | congruence].
        apply K in H. tauto.
    + split; [discriminate |]. intros [[E _] | [[E _] | [_ [n [H E]]]]]; [congruence | congruence |].
      apply K in H. tauto.
Qed.

Lemma csr_length b b' : csr_access b = Some b' -> lenN b' < 3 <-> lenN b < 3.
Proof.
  rewrite csr_access_eq.
  destruct (negb (nth 0 b 0 =? 0xc2) || (lenN b <? 11)) eqn:H1; [intros [= <-]; tauto |].
  apply orb_false_iff in H1. destruct H1 as [_ H1]. apply N.ltb_ge in H1.
  assert (O : forall i v, 3 <= i -> i <= lenN b -> ~ lenN (overwrite b i v) < 3).
  { intros i v I1 I2. unfold overwrite. rewrite lenN_app. unfold take. rewrite (lenN_firstn i b I2). lia. }
  destruct (_ || _) eqn:H2; [intros [= <-]; tauto |].
  destruct (field b 7 =? CSR_VARID_PS).
  - destruct (N.ltb_spec (lenN b) (17 + size2 b)); [intros [= <-]; tauto |].
    destruct (field b 1 =? 0).
    + destruct (csr_read_pskey _ _); [| discriminate]. intros [= <-].
      split; [intros F; exfalso; revert F; apply O; lia | lia].
    + destruct (csr_write_pskey _ _); [| discriminate]. intros [= <-]. tauto.
  - destruct (field b 1 =? 0); [| intros [= <-]; tauto].
    destruct (csr_read_varid _ _); [| discriminate]. intros [= <-].
    split; [intros F; exfalso; revert F; apply O; lia | lia].
Qed.

Lemma fits_any1 b : fits [Fix 1; Any] b = true <-> 1 <= lenN b.
Proof.
  unfold Hci.fits. cbn [read]. destruct (N.ltb_spec (lenN b) 1).
  - split; [discriminate | lia].
  - destruct exact; split; auto.
Qed.

Lemma fits_any2 b : fits [Fix 2; Any] b = true <-> 2 <= lenN b.
Proof.
  unfold Hci.fits. cbn [read]. destruct (N.ltb_spec (lenN b) 2).
  - split; [discriminate | lia].
  - destruct exact; split; auto.
Qed.

Lemma fits_fix n b : fits [Fix n] b = false <-> lenN b < n \/ exact = true /\ lenN b <> n.
Proof.
  unfold Hci.fits. cbn [read]. destruct (N.ltb_spec (lenN b) n).
  - split; [now left | reflexivity].
  - rewrite lenN_drop by assumption. destruct exact.
    + rewrite N.eqb_neq. split; [intros H0; right; split; [reflexivity | lia] | intros [H0 | [_ H0]]; lia].
    + split; [discriminate | intros [H0 | [H0 _]]; [lia | discriminate]].
Qed.

(** The sub-commands of the packet filters that assert. *)
Lemma apcf_dies b : 1 <= lenN b ->
  (exists y, apcf_layout (nth 0 b 0) = Some y /\ fits y b = true) /\ apcf_asserts exact b = true <->
  exists size, In (firstn 2 b, size) [([1; 0], 18); ([1; 1], 3); ([2; 0], 10); ([2; 1], 10); ([2; 2], 3)] /\
   (lenN b < size \/ exact = true /\ lenN b <> size).
Proof.
  intros L. destruct b as [| x b]; [rewrite lenN_nil in L; lia |].
  destruct b as [| y b].
  - split.
    + intros [[l [A F]] S]. exfalso. unfold apcf_layout, apcf_asserts in *. cbn [nth] in *.
      destruct (N.eqb_spec x 1) as [-> | N1].
      { cbn in A. injection A as <-. apply fits_any2 in F. unfold lenN in F. cbn in F. lia. }
      destruct (N.eqb_spec x 2) as [-> | N2]; [| discriminate].
      cbn in A. injection A as <-. apply fits_any2 in F. unfold lenN in F. cbn in F. lia.
    + intros [n [I _]]. cbn in I. exfalso.
      repeat (destruct I as [I | I]; [discriminate |]). exact I.
  - assert (D : drop 2 (x :: y :: b) = b) by reflexivity.
    assert (N2 : lenN (x :: y :: b) = 2 + lenN b) by (rewrite !lenN_cons; lia).
    rewrite N2. unfold apcf_asserts. rewrite D. cbn [nth firstn].
    assert (J : forall n a c d, negb (fits [Fix n] b) = true -> x = a -> y = c -> d = 2 + n ->
      In ([a; c], d) [([1; 0], 18); ([1; 1], 3); ([2; 0], 10); ([2; 1], 10); ([2; 2], 3)] ->
      exists size, In ([x; y], size) [([1; 0], 18); ([1; 1], 3); ([2; 0], 10); ([2; 1], 10); ([2; 2], 3)] /\
       (2 + lenN b < size \/ exact = true /\ 2 + lenN b <> size)).
    { intros n a c d F -> -> -> I. exists (2 + n). split; [exact I |].
      apply negb_true_iff, fits_fix in F. destruct F as [F | [F G]]; [left; lia | right; split; [exact F | lia]]. }
    split.
    + intros [_ S].
      destruct (N.eqb_spec x 1) as [Ex | Nx].
      * destruct (N.eqb_spec y 0) as [Ey | Ny]; [apply (J 16 1 0 18 S Ex Ey eq_refl); now left |].
        destruct (N.eqb_spec y 1) as [Ey | Ny1]; [| discriminate].
        apply (J 1 1 1 3 S Ex Ey eq_refl). right. now left.
      * destruct (N.eqb_spec x 2) as [Ex | Nx2]; [| discriminate].
        destruct (N.eqb_spec y 0) as [Ey | Ny]; cbn [orb] in S.
        { apply (J 8 2 0 10 S Ex Ey eq_refl). right. right. now left. }
        destruct (N.eqb_spec y 1) as [Ey | Ny1].
        { apply (J 8 2 1 10 S Ex Ey eq_refl). right. right. right. now left. }
        destruct (N.eqb_spec y 2) as [Ey | Ny2]; [| discriminate].
        apply (J 1 2 2 3 S Ex Ey eq_refl). right. right. right. right. now left.
    + intros [n [I B]].
      assert (G : forall m, n = 2 + m -> fits [Fix m] b = false).
      { intros m E. apply fits_fix. destruct B as [B | [B1 B2]]; [left; lia | right; split; [exact B1 | lia]]. }
      assert (A2 : fits [Fix 2; Any] (x :: y :: b) = true) by (apply fits_any2; rewrite N2; lia).
      destruct I as [I | [I | [I | [I | [I | []]]]]]; injection I as Ix Iy In; subst x y;
        (split; [exists [Fix 2; Any]; split; [reflexivity | exact A2] |]); cbn.
      * now rewrite (G 16 (eq_sym In)).
      * now rewrite (G 1 (eq_sym In)).
      * now rewrite (G 8 (eq_sym In)).
      * now rewrite (G 8 (eq_sym In)).
      * now rewrite (G 1 (eq_sym In)).
Qed.

(** The conditions under which a handler takes the controller down. *)
Definition kills (c : config) (k : kind) (b : list N) : Prop :=
  match k with
  | Filters => nth 0 b 0 <> 0
  | GetsFeatures => 3 <= nth 0 b 0
  | IntelRead => lenN b <> 2
  | IntelWrite => ~ records b
  | Csr => has_csr c = true /\ (lenN b < 3 \/ csr_too_small b)
  | Apcf => has_apcf c = true /\ exists size,
      In (firstn 2 b, size) [([1; 0], 18); ([1; 1], 3); ([2; 0], 10); ([2; 1], 10); ([2; 2], 3)] /\
      (lenN b < size \/ exact = true /\ lenN b <> size)
  | _ => False
  end.

Lemma alive_done s l : alive (Done s l).
Proof. now exists s, l. Qed.

Lemma dead_abort l : ~ alive (Abort l).
Proof. intros [s' [l' H]]. discriminate. Qed.

Lemma dead_undefined : ~ alive Undefined.
Proof. intros [s' [l' H]]. discriminate. Qed.

Lemma alive_invalid c s p : tolerant c = true -> alive (invalid W c s p).
Proof. intros T. unfold invalid. rewrite T. apply alive_done. Qed.

Lemma alive_ask s op b f : inner op b (world W s) <> None -> alive (ask W inner s op b f).
Proof. intros H. unfold ask. destruct (inner op b (world W s)); [apply alive_done | now destruct H]. Qed.

Lemma served_alive c s k op b p : tolerant c = true -> inner op b (world W s) <> None ->
  (k = Apcf -> 1 <= lenN b) ->
  alive (serve c s k op b p) <-> ~ kills c k b.
Proof.
  intros T I L.
  assert (A : forall f, alive (ask W inner s op b f)) by (intros f; now apply alive_ask).
  assert (D := alive_done).
  destruct k; cbn [Hci.serve kills];
    try (split; [intros _ [] | intros _; first [apply D | apply A]]).
  - split; [intros _ [] | intros _]. destruct (accepted c s0 b); [| apply D].
    destruct (inner op b (world W s)); [apply D | now destruct I].
  - split; [intros _ [] | intros _]. destruct (is_cis _); [apply D |]. destruct (_ || _); [apply A | apply D].
  - split; [intros _ [] | intros _]. destruct (inner op b (world W s)); [apply D | now destruct I].
  - split; [intros _ [] | intros _]. destruct (inner op b (world W s)); [apply D | now destruct I].
  - split; [intros _ [] | intros _]. destruct (inner op b (world W s)); [apply D | now destruct I].
  - destruct (N.eqb_spec (nth 0 b 0) 0) as [E | E].
    + split; [intros _ F; now apply F | intros _; apply D].
    + split; [intros F; now apply dead_abort in F | intros F; now destruct F].
  - split; [intros _ [] | intros _]. destruct (inner op b (world W s)); [apply D | now destruct I].
  - destruct (N.leb_spec 3 (nth 0 b 0)) as [E | E].
    + split; [intros F; now apply dead_undefined in F | intros F; now destruct F].
    + split; [intros _ F; lia | intros _; apply A].
  - split; [intros _ [] | intros _]. unfold injects.
    repeat match goal with |- context [if ?x then _ else _] => destruct x end;
      first [apply D | now apply alive_invalid].
  - destruct (has_apcf c); cbn [negb]; [| split; [intros _ [F _]; discriminate | intros _; apply D]].
    specialize (L eq_refl). generalize (apcf_dies b L). intros X.
    unfold apcf. destruct (apcf_layout (nth 0 b 0)) as [y |] eqn:Y.
    + destruct (fits y b) eqn:F; cbn [negb].
      * destruct (apcf_asserts exact b) eqn:Z.
        -- split; [intros H; now apply dead_abort in H |]. intros H. exfalso. apply H. split; [reflexivity |].
           apply X. split; [exists y; now split | reflexivity].
        -- split; [| intros _; apply A]. intros _ [_ H]. apply X in H. destruct H as [_ H]. discriminate.
      * split; [| intros _; now apply alive_invalid]. intros _ [_ H]. apply X in H.
        destruct H as [[y' [E H]] _]. congruence.
    + rewrite T. split; [| intros _; apply D]. intros _ [_ H]. apply X in H.
      destruct H as [[y' [E H]] _]. congruence.
  - unfold csr. destruct (has_csr c); cbn [negb]; [| split; [intros _ [F _]; discriminate | intros _; apply D]].
    destruct (csr_access b) as [b' |] eqn:E.
    + destruct (N.ltb_spec (lenN b') 3) as [F | F].
      * split; [intros H; now apply dead_undefined in H |]. intros H. exfalso. apply H. split; [reflexivity |].
        left. now apply (csr_length b b' E).
      * destruct (inner op b (world W s)); [| now destruct I].
        split; [| intros _; apply D]. intros _ [_ [H | H]].
        -- apply (csr_length b b' E) in H. lia.
        -- apply csr_dies in H. congruence.
    + split; [intros H; now apply dead_abort in H |]. intros H. exfalso. apply H. split; [reflexivity |].
      right. now apply csr_dies.
  - unfold intel_read. destruct (N.eqb_spec (lenN b) 2) as [E | E]; cbn [negb].
    + split; [intros _ F; now apply F | intros _]. destruct (le16 b =? 0x0204); apply D.
    + split; [intros F; now apply dead_abort in F | intros F; now destruct F].
  - unfold intel_write. generalize (ddc_records (length b) b (le_n _)). intros X.
    destruct (ddc (length b) b); cbn [negb].
    + destruct (inner op b (world W s)); [| now destruct I].
      split; [intros _ F; apply F; now apply X | intros _; apply D].
    + split; [intros F; now apply dead_abort in F |]. intros F. exfalso. apply F. intros R. apply X in R. discriminate.
  - split; [intros _ [] | intros _]. destruct (negb (has_capabilities c)); [apply D | apply A].
Qed.

(** A malformed packet stands in the way of three of them only. *)
Lemma deadly_kills c op r b : assoc handlers op = Some r ->
  deadly exact c op b <-> kills c (does r) b /\ (checked (does r) && negb ((op =? view r) && fits (layout r) b) = false).
Proof.
  intros A. generalize (kind_of op r A). intros K.
  assert (V : does r = Filters \/ does r = GetsFeatures \/ does r = Apcf -> view r = op).
  { assert (T : table_ok (fun e => match does (snd e) with Filters | GetsFeatures | Apcf => view (snd e) =? fst e | _ => true end))
      by (vm_compute; reflexivity).
    generalize (from_table _ _ _ T A). cbn [fst snd]. intros H [E | [E | E]]; rewrite E in H; now apply N.eqb_eq. }
  assert (LF : does r = Filters -> layout r = [Fix 1; Any]).
  { assert (T : table_ok (fun e => match does (snd e), layout (snd e) with Filters, [Fix 1; Any] => true | Filters, _ => false | _, _ => true end))
      by (vm_compute; reflexivity).
    generalize (from_table _ _ _ T A). cbn [fst snd]. intros H E. rewrite E in H.
    destruct (layout r) as [| [n | | | | | |] l]; try discriminate.
    destruct n as [| [? | ? |]]; try discriminate. destruct l as [| [] l]; try discriminate. now destruct l. }
  assert (X : forall o, In o [SET_EVENT_FILTER; READ_LOCAL_EXTENDED_FEATURES; INTEL_READ; INTEL_WRITE; CSR_COMMAND; LE_APCF] ->
    exists q, assoc handlers o = Some q /\
    does q = if o =? SET_EVENT_FILTER then Filters else if o =? READ_LOCAL_EXTENDED_FEATURES then GetsFeatures else
    if o =? INTEL_READ then IntelRead else if o =? INTEL_WRITE then IntelWrite else if o =? CSR_COMMAND then Csr else Apcf).
  { intros o H. repeat (destruct H as [<- | H]; [eexists; split; [vm_compute; reflexivity | vm_compute; reflexivity] |]). destruct H. }
  split.
  - intros D.
    destruct D as [[E D] | [[E [D D']] | [[E D] | [[E D] | [[E [D D']] | [E [D D']]]]]]]; subst op;
      [destruct (X SET_EVENT_FILTER) as [q [B Q]]; [cbn; tauto |]
      |destruct (X READ_LOCAL_EXTENDED_FEATURES) as [q [B Q]]; [cbn; tauto |]
      |destruct (X INTEL_READ) as [q [B Q]]; [cbn; tauto |]
      |destruct (X INTEL_WRITE) as [q [B Q]]; [cbn; tauto |]
      |destruct (X CSR_COMMAND) as [q [B Q]]; [cbn; tauto |]
      |destruct (X LE_APCF) as [q [B Q]]; [cbn; tauto |]];
      rewrite A in B; injection B as <-; cbn in Q; rewrite Q in *; cbn [kills checked andb].
    + split; [exact D |]. rewrite (V (or_introl eq_refl)), N.eqb_refl, (LF eq_refl). apply negb_false_iff.
      apply fits_any1. destruct b; [now destruct D |]. rewrite lenN_cons. lia.
    + split; [exact D |]. rewrite (V (or_intror (or_introl eq_refl))), N.eqb_refl. destruct K as [_ ->].
      apply negb_false_iff. cbn [andb]. destruct (fits [Fix 1] b) eqn:F; [reflexivity |].
      apply fits_fix in F. exfalso. destruct F as [F | [F1 F2]]; [| now apply F2, D'].
      destruct b; [cbn in D; lia |]. rewrite lenN_cons in F. lia.
    + split; [exact D | reflexivity].
    + split; [exact D | reflexivity].
    + split; [split; assumption | reflexivity].
    + split; [split; assumption |]. rewrite (V (or_intror (or_intror eq_refl))), N.eqb_refl. destruct K as [_ ->].
      apply negb_false_iff. cbn [andb]. apply fits_any1.
      destruct D' as [n [I _]]. destruct b; [| rewrite lenN_cons; lia].
      cbn in I. repeat (destruct I as [I | I]; [discriminate |]). destruct I.
  - intros [H F]. unfold deadly. destruct (does r); cbn [kills] in H; try (exfalso; exact H); cbn [checked andb] in F.
    + left. now split.
    + right. left. destruct K as [-> Ly]. split; [reflexivity |]. split; [exact H |]. intros E.
      apply negb_false_iff, andb_true_iff in F. destruct F as [_ F]. rewrite Ly in F.
      destruct (N.eq_dec (lenN b) 1) as [Q | Q]; [exact Q |]. exfalso.
      rewrite (proj2 (fits_fix 1 b) (or_intror (conj E Q))) in F. discriminate.
    + do 5 right. destruct K as [-> _]. now split.
    + do 4 right. left. now split.
    + right. right. left. now split.
    + do 3 right. left. now split.
Qed.

(** ** The default properties *)

Lemma nth_map_seq (f : nat -> N) n k d : (n < k)%nat -> nth n (map f (seq 0 k)) d = f n.
Proof.
  intros H. rewrite (nth_indep _ d (f 0%nat)) by (rewrite map_length, seq_length; exact H).
  rewrite map_nth, seq_nth by exact H. reflexivity.
Qed.

Lemma masked_of_list l i : Forall (fun j => j / 10 < 64) l -> Forall (fun j => j mod 10 < 8) l -> i / 10 < 64 ->
  masked (mask_of l) i = true <-> In i l.
Proof.
  intros B B8 I. unfold masked, mask_of.
  rewrite nth_map_seq by lia. rewrite N2Nat.id.
  clear B B8 I. revert i. induction l as [| j l IH]; intros i; cbn [filter].
  - cbn [map fold_right In]. rewrite N.bits_0. split; [discriminate | tauto].
  - destruct (N.eqb_spec (j / 10) (i / 10)) as [E | E].
    + cbn [map fold_right]. rewrite N.lor_spec, orb_true_iff, IH, N.pow2_bits_eqb, N.eqb_eq.
      cbn [In]. split; [| intros [-> | H]; [now left | now right]].
      intros [H | H]; [left | now right].
      rewrite (N.div_mod j 10), (N.div_mod i 10) by discriminate. congruence.
    + rewrite IH. cbn [In]. split; [now right |]. intros [-> | H]; [now destruct E | exact H].
Qed.

Lemma default_supported c op : commands c = mask_of advertised ->
  supported c op = true /\ assoc handlers op = None <-> In op advertised_in_vain.
Proof.
  intros C.
  assert (T1 : forallb (fun op => negb ((op =? READ_LOCAL_SUPPORTED_COMMANDS)) &&
    match assoc handlers op, assoc known op with None, Some i => mem i advertised | _, _ => false end) advertised_in_vain = true)
    by (vm_compute; reflexivity).
  assert (T2 : forallb (fun e => match assoc handlers (fst e) with Some _ => true | None => negb (mem (snd e) advertised) || mem (fst e) advertised_in_vain end) known = true)
    by (vm_compute; reflexivity).
  assert (T3 : forallb (fun e => snd e / 10 <? 64) known = true) by (vm_compute; reflexivity).
  assert (T4 : forallb (fun j => (j / 10 <? 64)) advertised = true) by (vm_compute; reflexivity).
  assert (T5 : forallb (fun j => (j mod 10 <? 8)) advertised = true) by (vm_compute; reflexivity).
  rewrite forallb_forall in T1, T2, T3, T4, T5.
  assert (B4 : Forall (fun j => j / 10 < 64) advertised)
    by (apply Forall_forall; intros j J; apply N.ltb_lt; now apply T4).
  assert (B5 : Forall (fun j => j mod 10 < 8) advertised)
    by (apply Forall_forall; intros j J; apply N.ltb_lt; now apply T5).
  assert (M : forall i, assoc known op = Some i -> masked (commands c) i = true <-> In i advertised).
  { intros i A. rewrite C. apply masked_of_list; try assumption.
    apply assoc_in in A. apply N.ltb_lt. exact (T3 _ A). }
  unfold supported. split.
  - intros [S H]. rewrite H, andb_false_r, orb_false_r in S.
    destruct (N.eqb_spec op READ_LOCAL_SUPPORTED_COMMANDS) as [-> | _]; [vm_compute in H; discriminate |].
    destruct (assoc known op) as [i |] eqn:A; [| discriminate].
    apply (M i eq_refl) in S. apply assoc_in in A. specialize (T2 _ A). cbn [fst snd] in T2. rewrite H in T2.
    apply mem_in in S. rewrite S in T2. now apply mem_in.
  - intros I. specialize (T1 _ I). apply andb_true_iff in T1. destruct T1 as [T0 T1].
    apply negb_true_iff in T0. rewrite T0. destruct (assoc handlers op); [discriminate |].
    rewrite andb_false_r. cbn [orb].
    destruct (assoc known op) as [i |] eqn:A; [| discriminate].
    split; [| reflexivity]. apply (M i eq_refl). now apply mem_in.
Qed.

Lemma default_implements c op b : commands c = mask_of advertised -> deadly exact c op b ->
  supported c op = true /\ assoc handlers op <> None.
Proof.
  intros C D.
  assert (S : In op [SET_EVENT_FILTER; READ_LOCAL_EXTENDED_FEATURES; INTEL_READ; INTEL_WRITE; CSR_COMMAND; LE_APCF]).
  { destruct D as [[-> _] | [[-> _] | [[-> _] | [[-> _] | [[-> _] | [-> _]]]]]]; cbn; tauto. }
  clear D. unfold supported. rewrite C.
  repeat (destruct S as [<- | S]; [vm_compute; split; [reflexivity | discriminate] |]). destruct S.
Qed.

(** Which commands take the default controller down. *)
Lemma default_alive c s p :
  commands c = mask_of advertised -> strict c = true -> tolerant c = true -> operational c s ->
  well_framed p -> (exact = true -> lenN p = 3 + nth 2 p 0) ->
  inner (opcode p) (parameters p) (world W s) <> None ->
  alive (command c s p) <-> ~ In (opcode p) advertised_in_vain /\ ~ deadly exact c (opcode p) (parameters p).
Proof.
  intros C S T O F E I. rewrite (executed c s p _ _ (framed_parses p F E) O).
  generalize (default_supported c (opcode p) C). intros V.
  destruct (supported c (opcode p)) eqn:Sp.
  - destruct (assoc handlers (opcode p)) as [r |] eqn:A.
    + generalize (deadly_kills c (opcode p) r (parameters p) A). intros K.
      destruct (checked (does r) && _) eqn:B.
      * split; [| intros _; now apply alive_invalid]. intros _. split.
        -- intros X. apply V in X. destruct X as [_ X]. discriminate.
        -- intros D. apply K in D. destruct D as [_ D]. discriminate.
      * rewrite served_alive; [| assumption | assumption |].
        -- split.
           ++ intros X. split; [intros Y; apply V in Y; destruct Y as [_ Y]; discriminate |].
              intros D. apply K in D. now apply X.
           ++ intros [_ X] Y. apply X, K. now split.
        -- intros Q. generalize (kind_of _ _ A). rewrite Q in *. intros [_ Ly]. rewrite Ly in B.
           cbn [checked andb] in B. apply negb_false_iff, andb_true_iff in B. destruct B as [_ B].
           now apply fits_any1.
    + rewrite S. split; [intros X; now apply dead_abort in X |]. intros [X _]. exfalso. apply X. apply V. now split.
  - split; [| intros _; apply alive_done]. intros _. split.
    + intros X. apply V in X. destruct X as [X _]. discriminate.
    + intros D. apply (default_implements c _ _ C) in D. destruct D as [D _]. congruence.
Qed.

(** The other outcome is always an abort of the process or an access outside of
    an array: those are the only other constructors of [result]. *)
Lemma vain_aborts c s p :
  commands c = mask_of advertised -> strict c = true -> operational c s ->
  well_framed p -> (exact = true -> lenN p = 3 + nth 2 p 0) ->
  In (opcode p) advertised_in_vain -> command c s p = Abort [].
Proof.
  intros C S O F E I. rewrite (executed c s p _ _ (framed_parses p F E) O).
  apply (default_supported c (opcode p) C) in I. destruct I as [-> ->]. now rewrite S.
Qed.

End Any.
