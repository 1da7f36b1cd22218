(** Lemmas about the HCI front end: supported commands, loopback and settings. *)
From Verif Require Import Prelude HciTables Hci HciSpec HciProofs.
Open Scope N_scope.

Section Any.

Variable W : Type.
Variable inner : N -> list N -> W -> option (answer W).
Variable exact : bool.

Notation command := (command W inner exact).
Notation serve := (serve W inner exact).
Notation parse := (parse exact).
Notation fits := (fits exact).
Notation step := (step W inner exact).
Notation ran := (ran W inner exact).
Notation Done := (Done W).
Notation Abort := (Abort W).
Notation Undefined := (Undefined W).
Notation sound := (sound exact).

(** ** Supported commands *)

Lemma positions_table : forallb (fun e => match e with (op, octet, bit) =>
    match assoc known op with Some i => (i / 10 =? octet) && (i mod 10 =? bit) | None => false end &&
    negb (is_vendor op) && negb (op =? READ_LOCAL_SUPPORTED_COMMANDS) &&
    match assoc handlers op with
    | Some r => match does r with Refused | Apcf | Csr | Capabilities | Injects | IntelRead => false | Constant l => match l with [] => false | _ => true end | _ => true end
    | None => true end end) core_positions = true.
Proof. vm_compute. reflexivity. Qed.

Lemma position op octet bit : In (op, octet, bit) core_positions ->
  (forall c, supported c op = shown (commands c) octet bit) /\
  (forall r, assoc handlers op = Some r ->
     match does r with Refused | Apcf | Csr | Capabilities | Injects | IntelRead | Constant [] => False | _ => True end).
Proof.
  intros I. generalize positions_table. rewrite forallb_forall. intros T. specialize (T _ I). cbn beta iota in T.
  apply andb_true_iff in T. destruct T as [T T4]. apply andb_true_iff in T. destruct T as [T T3].
  apply andb_true_iff in T. destruct T as [T1 T2].
  apply negb_true_iff in T2, T3. split.
  - intros c. unfold supported. rewrite T2, T3. cbn [andb orb].
    destruct (assoc known op) as [i |]; [| discriminate].
    apply andb_true_iff in T1. destruct T1 as [E1 E2]. apply N.eqb_eq in E1, E2. subst.
    reflexivity.
  - intros r A. rewrite A in T4. destruct (does r); try exact Logic.I; try discriminate.
    destruct l; [discriminate | exact Logic.I].
Qed.

(** A hidden command is refused, whatever it is. *)
Lemma unsupported_refused c s p : operational c s -> sound p -> supported c (opcode p) = false ->
  command c s p = Done s [Event (CommandComplete 1 (opcode p) [1])].
Proof.
  intros O [F X] H. rewrite (executed W inner exact c s p _ _ (framed_parses W inner exact p F X) O).
  rewrite H. reflexivity.
Qed.

Lemma hidden_refused c s p op octet bit : In (op, octet, bit) core_positions -> opcode p = op ->
  operational c s -> sound p -> shown (commands c) octet bit = false ->
  command c s p = Done s [Event (CommandComplete 1 op [1])].
Proof.
  intros I <- O S H. apply unsupported_refused; [exact O|exact S|].
  destruct (position _ _ _ I) as [Sp _]. now rewrite Sp.
Qed.

Lemma ask_no_refusal s op b f s' l :
  (forall a, inner op b (world W s) = Some a -> no_refusal op (f a)) ->
  ask W inner s op b f = Done s' l -> no_refusal op l.
Proof.
  intros H. unfold ask. destruct (inner op b (world W s)) as [a |]; [| discriminate].
  intros [= <- <-]. specialize (H a eq_refl). unfold no_refusal. intros I. apply in_app_or in I.
  destruct I as [I | I]; [| now apply H]. apply in_map_iff in I. destruct I as [x [I _]]. discriminate.
Qed.

(** Whoever offers a command executes it: Unknown HCI Command is not the answer. *)
Lemma supported_executed c s p op s' l : opcode p = op ->
  (forall r, assoc handlers op = Some r ->
     match does r with Refused | Apcf | Csr | Capabilities | Injects | IntelRead | Constant [] => False | _ => True end) ->
  operational c s -> sound p -> supported c op = true -> strict c = true ->
  (forall o b w a, inner o b w = Some a -> status W a <> 1) ->
  command c s p = Done s' l -> no_refusal op l.
Proof.
  intros E K O [F X] H S U C. rewrite (executed W inner exact c s p _ _ (framed_parses W inner exact p F X) O) in C.
  subst op. rewrite H in C.
  destruct (assoc handlers (opcode p)) as [r |]; [| now rewrite S in C].
  specialize (K r eq_refl). remember (opcode p) as op eqn:Eo. clear Eo H.
  assert (Z : forall e l', ~ (e = Event (CommandComplete 1 op [1])) -> no_refusal op l' -> no_refusal op (e :: l')).
  { intros e l' N1 N2 [J | J]; [now apply N1 | now apply N2]. }
  assert (Z0 : no_refusal op []) by (intros []).
  destruct (checked (does r) && _).
  { unfold invalid in C. destruct (tolerant c); [| discriminate]. injection C as <- <-. repeat (apply Z; [discriminate |]). exact Z0. }
  destruct (does r); cbn [Hci.serve] in C; try contradiction.
  - revert C. apply ask_no_refusal. intros a A. apply Z; [| exact Z0]. intros J. injection J as J. apply U in A. contradiction.
  - revert C. apply ask_no_refusal. intros a A. apply Z; [discriminate | exact Z0].
  - injection C as <- <-. apply Z; [discriminate | exact Z0].
  - injection C as <- <-. apply Z; [discriminate | exact Z0].
  - injection C as <- <-. apply Z; [discriminate | exact Z0].
  - injection C as <- <-. apply Z; [discriminate | exact Z0].
  - destruct (accepted c s0 (parameters p)).
    + destruct (inner op (parameters p) (world W s)); [| discriminate]. injection C as <- <-. apply Z; [discriminate | exact Z0].
    + injection C as <- <-. apply Z; [discriminate | exact Z0].
  - destruct (is_cis _); [injection C as <- <-; apply Z; [discriminate | exact Z0] |].
    destruct (_ || _); [| injection C as <- <-; apply Z; [discriminate | exact Z0]].
    revert C. apply ask_no_refusal. intros a A. apply Z; [discriminate | exact Z0].
  - injection C as <- <-. repeat (apply Z; [discriminate |]). exact Z0.
  - destruct (inner op (parameters p) (world W s)) as [a |]; [| discriminate]. injection C as <- <-.
    destruct (status W a =? 0); repeat (apply Z; [discriminate |]); exact Z0.
  - destruct (inner op (parameters p) (world W s)) as [a |]; [| discriminate]. injection C as <- <-.
    destruct (status W a =? 0); repeat (apply Z; [discriminate |]); exact Z0.
  - destruct (inner op (parameters p) (world W s)) as [a |]; [| discriminate]. injection C as <- <-.
    repeat (apply Z; [discriminate |]); exact Z0.
  - destruct (_ =? 0); [| discriminate]. injection C as <- <-. apply Z; [discriminate | exact Z0].
  - injection C as <- <-. repeat (apply Z; [discriminate |]). exact Z0.
  - injection C as <- <-. apply Z; [discriminate | exact Z0].
  - destruct (inner op (parameters p) (world W s)) as [a |]; [| discriminate]. injection C as <- <-.
    apply Z; [discriminate | exact Z0].
  - destruct (3 <=? _); [discriminate |]. revert C. apply ask_no_refusal. intros a A. apply Z; [discriminate | exact Z0].
  - injection C as <- <-. apply Z; [discriminate | exact Z0].
  - unfold intel_write in C. destruct (negb _); [discriminate |].
    destruct (inner op (parameters p) (world W s)) as [a |]; [| discriminate]. injection C as <- <-.
    apply Z; [discriminate | exact Z0].
Qed.

Lemma offered_executed c s p op octet bit s' l : In (op, octet, bit) core_positions -> opcode p = op ->
  operational c s -> sound p -> shown (commands c) octet bit = true -> strict c = true ->
  (forall o b w a, inner o b w = Some a -> status W a <> 1) ->
  command c s p = Done s' l -> no_refusal op l.
Proof.
  intros I E O S H. destruct (position _ _ _ I) as [Sp K]. apply supported_executed; try assumption. now rewrite Sp.
Qed.

(** The mask is always available, and is the one in use. *)
Lemma mask_shown c s p : opcode p = 0x1002 -> parameters p = [] -> operational c s -> sound p ->
  command c s p = Done s [Event (CommandComplete 1 0x1002 (0 :: commands c))].
Proof.
  intros E B O [F X]. rewrite (executed W inner exact c s p _ _ (framed_parses W inner exact p F X) O). rewrite E, B.
  assert (S : supported c 0x1002 = true) by reflexivity. rewrite S.
  assert (A : assoc handlers 0x1002 = Some {| view := 0x1002; layout := []; reply := 0x1002; does := GetsCommands |})
    by (vm_compute; reflexivity).
  rewrite A. cbn. now destruct exact.
Qed.

(** ** Loopback *)

Lemma looped_echo c s p : mode W s = 1 -> sound p -> ~ In (opcode p) never_looped ->
  command c s p = Done s [Event (LoopbackCommand p)].
Proof.
  intros M [F X] N. unfold Hci.command. rewrite (framed_parses W inner exact p F X).
  unfold looped. rewrite M. change (1 =? ENABLE_LOCAL) with true. cbn [andb].
  destruct (existsb (N.eqb (opcode p)) _) eqn:E; [| reflexivity].
  exfalso. apply N. now apply mem_in.
Qed.

Lemma is_byte_lt b : is_byte b = true -> b < 256.
Proof. unfold is_byte. apply N.ltb_lt. Qed.

Lemma bytes16_le16 x y : x < 256 -> bytes16 (le16 [x; y]) = [x; y].
Proof.
  intros H. unfold bytes16, le16. cbn [nth].
  rewrite N.add_comm, N.mul_comm, N.div_add_l by discriminate.
  rewrite N.add_comm, N.mod_add by discriminate.
  rewrite N.mod_small, (N.div_small x) by assumption. now rewrite N.add_0_r.
Qed.

Lemma take_all (b : list N) n : n = lenN b -> take n b = b.
Proof. intros ->. unfold take, lenN. rewrite Nat2N.id. apply firstn_all. Qed.

Lemma acl_echo c s p : mode W s = 1 -> acl_frame p ->
  step c s (AclData p) = Done s [AclToHost p; Event (NumberOfCompletedPackets (handle_of p) 1)].
Proof.
  intros M [B [L E]]. cbn [Hci.step]. unfold acl_data.
  destruct p as [| lo [| hi [| n [| m rest]]]]; try (unfold lenN in L; cbn in L; lia).
  cbn [nth] in E. rewrite !lenN_cons in E.
  cbn [forallb] in B. apply andb_true_iff in B. destruct B as [B0 B]. apply andb_true_iff in B.
  destruct B as [B1 B]. apply andb_true_iff in B. destruct B as [B2 B]. apply andb_true_iff in B. destruct B as [B3 B].
  apply is_byte_lt in B0, B1, B2, B3.
  assert (S : le16 [n; m] = lenN rest) by (unfold le16; cbn [nth]; lia).
  unfold acl_parse. rewrite S, N.ltb_irrefl, andb_false_r, M, (take_all rest _ eq_refl).
  change (1 =? ENABLE_LOCAL) with true. cbn iota.
  unfold handle_of. change (opcode (lo :: hi :: n :: m :: rest)) with (le16 [lo; hi]).
  set (h := le16 [lo; hi]).
  assert (H : h mod 4096 + 4096 * ((h / 4096) mod 4) + 16384 * (h / 16384) = h).
  { assert (h / 16384 = h / 4096 / 4) by (rewrite N.div_div by discriminate; reflexivity).
    generalize (N.div_mod h 4096) (N.div_mod (h / 4096) 4). lia. }
  unfold acl_build. rewrite H. unfold h. rewrite bytes16_le16 by assumption.
  rewrite <- S, bytes16_le16 by assumption. reflexivity.
Qed.

Lemma sco_echo c s p : mode W s = 1 -> sco_frame p -> no_reserved p ->
  step c s (ScoData p) = Done s (ScoToHost p :: if list_eqb (kept W s FlowControl) [1] then [Event (NumberOfCompletedPackets (handle_of p) 1)] else []).
Proof.
  intros M [B [L E]] R. cbn [Hci.step]. unfold sco_data.
  destruct p as [| lo [| hi [| n rest]]]; try (unfold lenN in L; cbn in L; lia).
  cbn [nth] in E. rewrite !lenN_cons in E.
  cbn [forallb] in B. apply andb_true_iff in B. destruct B as [B0 B]. apply andb_true_iff in B.
  destruct B as [B1 B]. apply andb_true_iff in B. destruct B as [B2 B].
  apply is_byte_lt in B0, B1, B2.
  assert (S : n = lenN rest) by lia.
  unfold sco_parse. rewrite S, N.ltb_irrefl, andb_false_r, M, (take_all rest _ eq_refl).
  change (1 =? ENABLE_LOCAL) with true. cbn iota.
  unfold handle_of. unfold no_reserved in R. change (opcode (lo :: hi :: n :: rest)) with (le16 [lo; hi]) in R.
  change (opcode (lo :: hi :: lenN rest :: rest)) with (le16 [lo; hi]).
  set (h := le16 [lo; hi]) in *.
  assert (H : h mod 4096 + 4096 * ((h / 4096) mod 4) = h).
  { rewrite (N.mod_small (h / 4096)) by (apply N.div_lt_upper_bound; [discriminate | exact R]).
    generalize (N.div_mod h 4096). lia. }
  unfold sco_build. rewrite H. unfold h. rewrite bytes16_le16 by assumption. reflexivity.
Qed.

(** Packets for a link that exists go to the controller that owns the handle; the
    credit of any other packet comes back at once. *)
Lemma acl_routed c s p : mode W s <> 1 -> acl_frame p ->
  step c s (AclData p) = Done s
    [if handle_of p <? 0x100 then AclToBredr p
     else if (0x200 <=? handle_of p) && (handle_of p <? 0x300) then AclToLe p
     else Event (NumberOfCompletedPackets (handle_of p) 1)].
Proof.
  intros M [B [L E]]. cbn [Hci.step]. unfold acl_data.
  destruct p as [| lo [| hi [| n [| m rest]]]]; try (unfold lenN in L; cbn in L; lia).
  cbn [nth] in E. rewrite !lenN_cons in E.
  assert (S : le16 [n; m] = lenN rest) by (unfold le16; cbn [nth]; lia).
  unfold acl_parse. rewrite S, N.ltb_irrefl, andb_false_r.
  unfold ENABLE_LOCAL. rewrite (proj2 (N.eqb_neq _ _) M).
  unfold handle_of. change (opcode (lo :: hi :: n :: m :: rest)) with (le16 [lo; hi]).
  set (h := le16 [lo; hi] mod 4096). unfold is_acl, is_le_acl.
  destruct (N.leb_spec h 0xff), (N.ltb_spec h 0x100); try lia; [reflexivity |].
  destruct (N.leb_spec 0x200 h); [| reflexivity].
  destruct (N.leb_spec h 0x2ff), (N.ltb_spec h 0x300); try lia; reflexivity.
Qed.

(** ** Settings *)

Lemma setting_eqb_eq x y : setting_eqb x y = true <-> x = y.
Proof. destruct x, y; cbn; split; congruence. Qed.

Lemma default_reset x : after_reset x = default x.
Proof. destruct x; reflexivity. Qed.

Lemma fresh_start c x : at_start c x = fresh c x.
Proof. destruct x; reflexivity. Qed.

Lemma laps_codes l : Forall inquiry_code l -> laps (length l) (concat l) = l.
Proof.
  induction 1 as [| x l [n [N ->]] F IH]; [reflexivity |].
  cbn [concat app length laps]. rewrite IH, N.mod_small by assumption. reflexivity.
Qed.

Lemma two (b : list N) : lenN b = 2 -> exists x y, b = [x; y].
Proof.
  unfold lenN. destruct b as [| x [| y [| z b]]]; cbn; intros H; try lia. now exists x, y.
Qed.

Lemma in_range_accepted c x b v : in_range c x b -> accepted c x b = Some v -> v = b.
Proof.
  intros [B R] A. destruct x; cbn [accepted] in A; cbn [in_range size_of] in R.
  - injection A as <-. apply take_all. congruence.
  - injection A as <-. apply take_all. congruence.
  - injection A as <-. apply take_all. congruence.
  - destruct R as [R V]. destruct (two b R) as [x [y ->]]. cbn in B. apply andb_true_iff in B. destruct B as [B _].
    injection A as <-. change (opcode [x; y]) with (le16 [x; y]) in V.
    change (le16 (x :: y :: nil) mod 1024) with (le16 [x; y] mod 1024).
    rewrite N.mod_small by exact V. now rewrite bytes16_le16 by (now apply is_byte_lt).
  - injection A as <-. apply take_all. congruence.
  - destruct R as [n [R ->]]. injection A as <-. cbn [nth]. rewrite (proj2 (N.ltb_lt n 4)) by lia. reflexivity.
  - injection A as <-. apply take_all. congruence.
  - destruct R as [l [F [C ->]]]. injection A as <-. cbn [nth drop].
    assert (D : drop 1 (lenN l :: concat l) = concat l) by reflexivity. rewrite D.
    assert (T : N.to_nat (lenN l) = length l) by (unfold lenN; now rewrite Nat2N.id).
    rewrite T, (laps_codes l F). rewrite firstn_all2 by (unfold lenN in C; lia). reflexivity.
  - destruct (two b R) as [x [y ->]]. cbn in B. apply andb_true_iff in B. destruct B as [B _].
    destruct (7 <? le16 [x; y]); [discriminate |]. injection A as <-.
    now rewrite bytes16_le16 by (now apply is_byte_lt).
  - injection A as <-. destruct R as [-> | ->]; reflexivity.
  - unfold lenN in R. destruct b as [| x [| y [| z [| t [| u b]]]]]; cbn in R; try lia.
    cbn in B. rewrite !andb_true_iff in B. destruct B as [B0 [B1 [B2 [B3 _]]]].
    change (drop 2 [x; y; z; t]) with [z; t] in A. change (le16 [x; y; z; t]) with (le16 [x; y]) in A.
    destruct (_ || _); [discriminate |]. injection A as <-.
    apply is_byte_lt in B0, B2.
    change (bytes16 (le16 [x; y]) ++ bytes16 (le16 [z; t]) = [x; y; z; t]).
    rewrite (bytes16_le16 x y B0), (bytes16_le16 z t B2). reflexivity.
Qed.

Lemma writer_inj x y : writer x = writer y -> x = y.
Proof. destruct x, y; cbn; intros H; try reflexivity; discriminate. Qed.

Lemma writer_row x : exists r, assoc handlers (writer x) = Some r /\ does r = Sets x.
Proof. destruct x; eexists; split; vm_compute; reflexivity. Qed.

Lemma reader_row x : exists r, assoc handlers (reader x) = Some r /\ does r = Gets x.
Proof. destruct x; eexists; split; vm_compute; reflexivity. Qed.

Lemma writer_not_reset x : (writer x =? 0x0c03) = false.
Proof. destruct x; reflexivity. Qed.

(** One step: a setting changes as its history says. *)
Lemma step_keeps c x s i s' l h : step c s i = Done s' l ->
  match i with
  | Command p => opcode p = writer x -> succeeded p l = true -> in_range c x (parameters p)
  | _ => True
  end ->
  last_value x ((i, l) :: h) (kept W s x) = last_value x h (kept W s' x).
Proof.
  intros H R. destruct i as [p | p | p]; cbn [last_value];
    try (apply data_keeps in H; now subst).
  cbn [Hci.step] in H. apply command_shape in H.
  destruct H as [[-> H] | [r [A [_ [_ [_ H]]]]]].
  - assert (F : succeeded p l = false)
      by (destruct H as [-> | [[-> _] | [-> | ->]]]; reflexivity).
    now rewrite F.
  - generalize (kind_of _ _ A). intros K. assert (Z := H). apply served_state in H.
    assert (Keep : kept W s' = kept W s -> opcode p <> writer x -> opcode p <> 0x0c03 ->
      (if succeeded p l then if opcode p =? writer x then last_value x h (parameters p)
        else if opcode p =? 0x0c03 then last_value x h (default x) else last_value x h (kept W s x)
       else last_value x h (kept W s x)) = last_value x h (kept W s' x)).
    { intros E N1 N2. rewrite E. destruct (succeeded p l); [| reflexivity].
      rewrite (proj2 (N.eqb_neq _ _) N1), (proj2 (N.eqb_neq _ _) N2). reflexivity. }
    assert (Nw : forall k, does r = k -> (forall y, k <> Sets y) -> opcode p <> writer x).
    { intros k D N E. destruct (writer_row x) as [q [Q1 Q2]]. rewrite <- E, A in Q1. injection Q1 as <-.
      apply (N x). congruence. }
    assert (Nr : forall k, does r = k -> k <> Resets -> opcode p <> 0x0c03).
    { intros k D N E.
      assert (exists q, assoc handlers 0x0c03 = Some q /\ does q = Resets) as [q [Q1 Q2]]
        by (eexists; split; vm_compute; reflexivity).
      rewrite <- E, A in Q1. injection Q1 as <-. congruence. }
    destruct (does r) as [| | | | | | y | y | | | | | | | | | | | | | | | | |] eqn:D;
      try (destruct H as [_ [_ H]]; apply Keep;
           [exact H | apply (Nw _ eq_refl); discriminate | apply (Nr _ eq_refl); discriminate]).
    + destruct K as [K _]. destruct H as [_ [_ [[v [V [E ->]]] | [V [E ->]]]]].
      * assert (S : succeeded p [complete (opcode p) [SUCCESS]] = true)
          by (cbn; now rewrite N.eqb_refl).
        rewrite S in *. rewrite E. unfold store. destruct (setting_eqb y x) eqn:Y.
        -- apply setting_eqb_eq in Y. subst y. rewrite K, N.eqb_refl.
           specialize (R K eq_refl). now rewrite (in_range_accepted c x _ v R V).
        -- destruct (N.eqb_spec (opcode p) (writer x)) as [F | F].
           ++ rewrite K in F. apply writer_inj in F. subst y.
              rewrite (proj2 (setting_eqb_eq x x) eq_refl) in Y. discriminate.
           ++ rewrite K, writer_not_reset. reflexivity.
      * assert (S : succeeded p [complete (opcode p) [INVALID_HCI_COMMAND_PARAMETERS]] = false) by reflexivity.
        rewrite S, E. reflexivity.
    + destruct H as [_ [_ [E ->]]].
      assert (S : succeeded p [complete (opcode p) [SUCCESS]] = true) by (cbn; now rewrite N.eqb_refl).
      rewrite S, E. rewrite K. change (RESET =? 0x0c03) with true.
      destruct (N.eqb_spec RESET (writer x)) as [F | _]; [destruct x; discriminate |].
      now rewrite default_reset.
Qed.

Lemma history_keeps c x s h t : ran c s h t -> writes_in_range c x h ->
  kept W t x = last_value x h (kept W s x).
Proof.
  induction 1 as [s | s i l s' h t H R IH]; intros F; [reflexivity |].
  rewrite (step_keeps c x s i s' l h H).
  - apply IH. intros p l' I. apply F. now right.
  - destruct i as [p | |]; try exact Logic.I. apply F. now left.
Qed.

Lemma read_setting c s x p s' l : command c s p = Done s' l -> opcode p = reader x ->
  answers l <> [] -> ~ In (Event (CommandComplete 1 (reader x) [1])) l ->
  l = [Event (CommandComplete 1 (reader x) (0 :: kept W s x))].
Proof.
  intros H E A N. apply command_shape in H. destruct H as [[-> H] | [r [B [_ [_ [_ H]]]]]].
  - destruct H as [-> | [[-> _] | [-> | ->]]]; try (now destruct A).
    destruct N. left. unfold unknown, complete. now rewrite E.
  - destruct (reader_row x) as [q [Q1 Q2]]. rewrite E, Q1 in B. injection B as <-. rewrite Q2 in H.
    injection H as <- <-. unfold complete. now rewrite E.
Qed.

Lemma history_read c w x h t p s' l : ran c (start W c w) h t -> writes_in_range c x h ->
  command c t p = Done s' l -> opcode p = reader x ->
  answers l <> [] -> ~ In (Event (CommandComplete 1 (reader x) [1])) l ->
  l = [Event (CommandComplete 1 (reader x) (0 :: last_value x h (fresh c x)))].
Proof.
  intros R F H E A N. rewrite (read_setting c t x p s' l H E A N).
  rewrite (history_keeps c x _ h t R F). cbn [kept start]. now rewrite fresh_start.
Qed.

(** ** The loopback mode *)

Lemma step_mode c s i s' l h : step c s i = Done s' l ->
  last_loopback ((i, l) :: h) (mode W s) = last_loopback h (mode W s').
Proof.
  intros H. destruct i as [p | p | p]; cbn [last_loopback];
    try (apply data_keeps in H; now subst).
  cbn [Hci.step] in H. apply command_shape in H.
  destruct H as [[-> H] | [r [A [_ [_ [_ H]]]]]].
  - assert (F : succeeded p l = false)
      by (destruct H as [-> | [[-> _] | [-> | ->]]]; reflexivity).
    now rewrite F.
  - generalize (kind_of _ _ A). intros K. assert (Z := H). apply served_state in H.
    assert (Nw : forall k, does r = k -> k <> SetsLoop -> opcode p <> 0x1802).
    { intros k D N E.
      assert (exists q, assoc handlers 0x1802 = Some q /\ does q = SetsLoop) as [q [Q1 Q2]]
        by (eexists; split; vm_compute; reflexivity).
      rewrite <- E, A in Q1. injection Q1 as <-. congruence. }
    assert (Nr : forall k, does r = k -> k <> Resets -> opcode p <> 0x0c03).
    { intros k D N E.
      assert (exists q, assoc handlers 0x0c03 = Some q /\ does q = Resets) as [q [Q1 Q2]]
        by (eexists; split; vm_compute; reflexivity).
      rewrite <- E, A in Q1. injection Q1 as <-. congruence. }
    destruct (does r) eqn:D;
      try (assert (E : mode W s' = mode W s) by apply H; rewrite E;
           rewrite (proj2 (N.eqb_neq _ _) (Nw _ eq_refl ltac:(discriminate))),
                   (proj2 (N.eqb_neq _ _) (Nr _ eq_refl ltac:(discriminate)));
           now destruct (succeeded p l)).
    + destruct K as [K _]. destruct H as [H _]. rewrite H. cbn [Hci.serve] in Z. injection Z as _ <-.
      rewrite K. change (WRITE_LOOPBACK_MODE =? 0x1802) with true.
      assert (S : succeeded p [Event (ConnectionComplete SUCCESS 0x123 1); Event (ConnectionComplete SUCCESS 0x345 0);
         complete WRITE_LOOPBACK_MODE [SUCCESS]] = true) by (cbn; now rewrite K).
      now rewrite S.
    + destruct H as [-> [_ [_ ->]]]. rewrite K.
      assert (S : succeeded p [complete RESET [SUCCESS]] = true) by (cbn; now rewrite K).
      now rewrite S.
Qed.

Lemma history_mode c s h t : ran c s h t -> mode W t = last_loopback h (mode W s).
Proof.
  induction 1 as [s | s i l s' h t H R IH]; [reflexivity |].
  now rewrite (step_mode c s i s' l h H).
Qed.

Lemma read_mode c w h t p s' l : ran c (start W c w) h t -> command c t p = Done s' l -> opcode p = 0x1801 ->
  answers l <> [] -> ~ In (Event (CommandComplete 1 0x1801 [1])) l ->
  l = [Event (CommandComplete 1 0x1801 [0; last_loopback h 0])].
Proof.
  intros R H E A N. apply command_shape in H. destruct H as [[-> H] | [r [B [_ [_ [_ H]]]]]].
  - destruct H as [-> | [[-> _] | [-> | ->]]]; try (now destruct A).
    destruct N. left. unfold unknown, complete. now rewrite E.
  - assert (exists q, assoc handlers 0x1801 = Some q /\ does q = GetsLoop) as [q [Q1 Q2]]
        by (eexists; split; vm_compute; reflexivity).
    rewrite E, Q1 in B. injection B as <-. rewrite Q2 in H.
    injection H as <- <-. unfold complete. rewrite E. rewrite (history_mode c _ h t R). reflexivity.
Qed.

(** Commands come back in local loopback, and only then. *)
Lemma history_loops c w h t p : ran c (start W c w) h t -> sound p -> ~ In (opcode p) never_looped ->
  last_loopback h 0 = 1 -> command c t p = Done t [Event (LoopbackCommand p)].
Proof.
  intros R S N L. apply looped_echo; try assumption. rewrite (history_mode c _ h t R). exact L.
Qed.

Lemma no_loop_no_echo c w h t p s' l q : ran c (start W c w) h t -> last_loopback h 0 <> 1 ->
  command c t p = Done s' l -> ~ In (Event (LoopbackCommand q)) l.
Proof.
  intros R L H I. apply command_shape in H.
  assert (M : mode W t <> 1) by (rewrite (history_mode c _ h t R); exact L).
  destruct H as [[-> H] | [r [B [_ [_ [_ H]]]]]].
  - destruct H as [-> | [[-> [E _]] | [-> | ->]]]; [| contradiction | |];
      repeat (destruct I as [I | I]; [discriminate |]); exact I.
  - assert (X : forall s op b f s' l, ask W inner s op b f = Done s' l ->
       (forall a, ~ In (Event (LoopbackCommand q)) (f a)) -> ~ In (Event (LoopbackCommand q)) l).
    { intros s0 op b f s1 l1 Q F J. unfold ask in Q. destruct (inner op b (world W s0)); [| discriminate].
      injection Q as <- <-. apply in_app_or in J. destruct J as [J | J]; [| now apply (F a)].
      apply in_map_iff in J. destruct J as [y [J _]]. discriminate. }
    assert (Y : forall P : Prop, (match l with [] => True | _ => True end) -> P -> P) by auto.
    destruct (does r); cbn [Hci.serve] in H;
      try (injection H as <- <-; repeat (destruct I as [I | I]; [discriminate |]); exact I);
      try (apply (X _ _ _ _ _ _ H) in I; [exact I | intros a J; repeat (destruct J as [J | J]; [discriminate |]); exact J]).
    + destruct (accepted _ _ _).
      * destruct (inner _ _ _); [| discriminate]. injection H as <- <-. repeat (destruct I as [I | I]; [discriminate |]); exact I.
      * injection H as <- <-. repeat (destruct I as [I | I]; [discriminate |]); exact I.
    + destruct (is_cis _); [injection H as <- <-; repeat (destruct I as [I | I]; [discriminate |]); exact I |].
      destruct (_ || _); [| injection H as <- <-; repeat (destruct I as [I | I]; [discriminate |]); exact I].
      apply (X _ _ _ _ _ _ H) in I; [exact I | intros a J; repeat (destruct J as [J | J]; [discriminate |]); exact J].
    + destruct (inner _ _ _) as [a |]; [| discriminate]. injection H as <- <-.
      destruct (status W a =? 0); repeat (destruct I as [I | I]; [discriminate |]); exact I.
    + destruct (inner _ _ _) as [a |]; [| discriminate]. injection H as <- <-.
      destruct (status W a =? 0); repeat (destruct I as [I | I]; [discriminate |]); exact I.
    + destruct (inner _ _ _) as [a |]; [| discriminate]. injection H as <- <-.
      repeat (destruct I as [I | I]; [discriminate |]); exact I.
    + destruct (_ =? 0); [| discriminate]. injection H as <- <-. repeat (destruct I as [I | I]; [discriminate |]); exact I.
    + destruct (inner _ _ _) as [a |]; [| discriminate]. injection H as <- <-.
      repeat (destruct I as [I | I]; [discriminate |]); exact I.
    + destruct (3 <=? _); [discriminate |].
      apply (X _ _ _ _ _ _ H) in I; [exact I | intros a J; repeat (destruct J as [J | J]; [discriminate |]); exact J].
    + unfold injects, invalid in H.
      repeat match type of H with context [if ?x then _ else _] => destruct x end; try discriminate;
      injection H as <- <-; repeat (destruct I as [I | I]; [discriminate |]); exact I.
    + destruct (negb (has_apcf c)); [injection H as <- <-; repeat (destruct I as [I | I]; [discriminate |]); exact I |].
      unfold apcf, invalid in H. destruct (apcf_layout _).
      * destruct (negb _); [destruct (tolerant c); [| discriminate]; injection H as <- <-; repeat (destruct I as [I | I]; [discriminate |]); exact I |].
        destruct (apcf_asserts _ _); [discriminate |].
        apply (X _ _ _ _ _ _ H) in I; [exact I | intros a J; repeat (destruct J as [J | J]; [discriminate |]); exact J].
      * destruct (tolerant c); [| discriminate]. injection H as <- <-. repeat (destruct I as [I | I]; [discriminate |]); exact I.
    + unfold csr in H. destruct (negb (has_csr c)); [injection H as <- <-; repeat (destruct I as [I | I]; [discriminate |]); exact I |].
      destruct (csr_access _); [| discriminate]. destruct (_ <? 3); [discriminate |].
      destruct (inner _ _ _); [| discriminate]. injection H as <- <-. repeat (destruct I as [I | I]; [discriminate |]); exact I.
    + unfold intel_read in H. destruct (negb _); [discriminate |].
      destruct (_ =? 0x0204); injection H as <- <-; repeat (destruct I as [I | I]; [discriminate |]); exact I.
    + unfold intel_write in H. destruct (negb _); [discriminate |].
      destruct (inner _ _ _); [| discriminate]. injection H as <- <-. repeat (destruct I as [I | I]; [discriminate |]); exact I.
    + destruct (negb (has_capabilities c)); [injection H as <- <-; repeat (destruct I as [I | I]; [discriminate |]); exact I |].
      apply (X _ _ _ _ _ _ H) in I; [exact I | intros a J; repeat (destruct J as [J | J]; [discriminate |]); exact J].
Qed.

(** ** Answers to writes *)

Lemma fits_in_range c x r b : assoc handlers (writer x) = Some r -> in_range c x b ->
  view r = writer x /\ fits (layout r) b = true.
Proof.
  intros A [B R].
  assert (L : view r = writer x /\ layout r = match x with InquiryCodes => [Cnt 3] | _ => [Fix (size_of x)] end)
    by (destruct x; vm_compute in A; injection A as <-; split; reflexivity).
  destruct L as [L1 L2]. split; [exact L1 |]. rewrite L2.
  assert (G : forall n, lenN b = n -> fits [Fix n] b = true).
  { intros n <-. unfold Hci.fits, read. rewrite N.ltb_irrefl.
    assert (D : drop (lenN b) b = []) by (unfold drop, lenN; rewrite Nat2N.id; apply skipn_all).
    rewrite D. now destruct exact. }
  destruct x; cbn [in_range size_of] in *; try (apply G; exact R).
  - apply G. apply R.
  - apply G. destruct R as [n [_ ->]]. reflexivity.
  - destruct R as [l [F [_ ->]]]. unfold Hci.fits. cbn [read].
    assert (E : lenN (concat l) = lenN l * 3).
    { clear B G. induction F as [| x l [n [N ->]] F IH]; [reflexivity |]. cbn [concat]. rewrite lenN_app, IH, (lenN_cons _ l).
      change (lenN [n; 0x8b; 0x9e]) with 3. lia. }
    rewrite <- E, N.ltb_irrefl.
    assert (D : drop (lenN (concat l)) (concat l) = []) by (unfold drop, lenN; rewrite Nat2N.id; apply skipn_all).
    rewrite D. now destruct exact.
  - apply G. destruct R as [-> | ->]; reflexivity.
Qed.

Lemma accepted_allowed c x b : in_range c x b -> accepted c x b = None <-> ~ allowed x b.
Proof.
  intros [B R]. destruct x; cbn [accepted allowed]; try (split; [discriminate | intros N; now destruct N]).
  - unfold opcode, le16. destruct (N.ltb_spec 7 (nth 0 b 0 + 256 * nth 1 b 0)); split; intros; try discriminate; try reflexivity; try lia.
  - cbn [in_range size_of] in R.
    unfold lenN in R. destruct b as [| x [| y [| z [| t [| u b]]]]]; cbn in R; try lia.
    change (drop 2 [x; y; z; t]) with [z; t]. unfold opcode, field, le16. cbn [nth].
    generalize (x + 256 * y) (z + 256 * t). intros n m.
    destruct (N.ltb_spec 0xfb n), (N.ltb_spec n 0x1b), (N.ltb_spec m 0x148), (N.ltb_spec 0x4290 m); cbn [orb];
      split; intros; try discriminate; try reflexivity; try lia.
Qed.

Lemma write_answer c s x p : operational c s -> sound p -> opcode p = writer x -> supported c (writer x) = true ->
  inner (writer x) (parameters p) (world W s) <> None -> in_range c x (parameters p) ->
  (allowed x (parameters p) ->
     exists s', command c s p = Done s' [Event (CommandComplete 1 (writer x) [0])]) /\
  (~ allowed x (parameters p) ->
     command c s p = Done s [Event (CommandComplete 1 (writer x) [0x12])]).
Proof.
  intros O [F X] E S I R. rewrite (executed W inner exact c s p _ _ (framed_parses W inner exact p F X) O).
  rewrite E, S. destruct (writer_row x) as [r [A D]]. rewrite A.
  destruct (fits_in_range c x r _ A R) as [V T]. rewrite V, T, N.eqb_refl, D. cbn [andb negb checked Hci.serve].
  generalize (accepted_allowed c x _ R). intros Q.
  destruct (accepted c x (parameters p)) as [v |].
  - split; intros L.
    + destruct (inner (writer x) (parameters p) (world W s)); [| now destruct I]. eexists. reflexivity.
    + destruct Q as [_ Q]. discriminate (Q L).
  - split; intros L.
    + destruct Q as [Q _]. now destruct (Q eq_refl).
    + reflexivity.
Qed.

(** Write commands without effect on what is read. *)
Lemma deaf_row rd v : In (rd, v) deaf ->
  exists r, assoc handlers rd = Some r /\ does r = Constant v.
Proof.
  intros I. repeat (destruct I as [I | I]; [injection I as <- <-; eexists; split; vm_compute; reflexivity |]).
  destruct I.
Qed.

Lemma deaf_read c s p s' l v : command c s p = Done s' l -> In (opcode p, v) deaf ->
  answers l <> [] -> ~ In (Event (CommandComplete 1 (opcode p) [1])) l ->
  l = [Event (CommandComplete 1 (opcode p) (0 :: v))].
Proof.
  intros H D A N. apply command_shape in H. destruct H as [[-> H] | [r [B [_ [_ [_ H]]]]]].
  - destruct H as [-> | [[-> _] | [-> | ->]]]; try (now destruct A).
    destruct N. left. reflexivity.
  - destruct (deaf_row _ _ D) as [q [Q1 Q2]]. rewrite Q1 in B. injection B as <-. rewrite Q2 in H.
    injection H as <- <-. reflexivity.
Qed.

(** Reset Failed Contact Counter is taken for an invalid packet, whatever its
    parameters. *)
Lemma counter_invalid c s p : operational c s -> sound p -> opcode p = 0x1402 -> supported c 0x1402 = true ->
  command c s p = if tolerant c then Done s [Event (HardwareError 0x43); InvalidPacket p]
                  else Abort [Event (HardwareError 0x43)].
Proof.
  intros O [F X] E S. rewrite (executed W inner exact c s p _ _ (framed_parses W inner exact p F X) O), E, S.
  assert (A : assoc handlers 0x1402 = Some {| view := 0x1401; layout := [Fix 2]; reply := 0x1402; does := HciTables.Complete |})
    by (vm_compute; reflexivity).
  rewrite A. reflexivity.
Qed.

(** Pages that do not exist are read anyway. *)
Lemma features_page c s p : operational c s -> sound p -> opcode p = READ_LOCAL_EXTENDED_FEATURES ->
  supported c READ_LOCAL_EXTENDED_FEATURES = true -> lenN (parameters p) = 1 -> 3 <= nth 0 (parameters p) 0 ->
  command c s p = Undefined.
Proof.
  intros O [F X] E S L P. rewrite (executed W inner exact c s p _ _ (framed_parses W inner exact p F X) O), E, S.
  assert (A : assoc handlers READ_LOCAL_EXTENDED_FEATURES = Some {| view := 0x1004; layout := [Fix 1]; reply := 0x1004; does := GetsFeatures |})
    by (vm_compute; reflexivity).
  rewrite A. unfold lenN in L. destruct (parameters p) as [| x [| y b]]; cbn in L; try lia.
  cbn [nth] in P. unfold Hci.fits. cbn. rewrite (proj2 (N.leb_le 3 x) P). now destruct exact.
Qed.

(** Leaving loopback announces the same two connections. *)
Lemma loopback_announces c s p : parse p = Some (opcode p, parameters p) -> opcode p = 0x1802 -> supported c 0x1802 = true ->
  (error_before_reset c = false \/ was_reset W s = true) -> lenN (parameters p) = 1 ->
  exists s', mode W s' = nth 0 (parameters p) 0 /\
  command c s p = Done s' [Event (ConnectionComplete 0 0x123 1); Event (ConnectionComplete 0 0x345 0);
                           Event (CommandComplete 1 0x1802 [0])].
Proof.
  intros P E S Q L. exists (with_mode W s (nth 0 (parameters p) 0)). split; [reflexivity |].
  unfold Hci.command. rewrite P, E.
  assert (Lp : looped W s 0x1802 = false) by (unfold looped; apply andb_false_r). rewrite Lp.
  assert (Er : error_before_reset c && negb (was_reset W s) && negb (0x1802 =? RESET) = false)
    by (destruct Q as [-> | ->]; [reflexivity | now rewrite andb_false_r]).
  rewrite Er, S.
  assert (A : assoc handlers 0x1802 = Some {| view := 0x1802; layout := [Fix 1]; reply := 0x1802; does := SetsLoop |})
    by (vm_compute; reflexivity).
  rewrite A. unfold lenN in L. destruct (parameters p) as [| x [| y b]]; cbn in L; try lia.
  unfold Hci.fits. cbn. now destruct exact.
Qed.

(** ** Data in a history *)

Lemma history_acl_echo c w h t p : ran c (start W c w) h t -> last_loopback h 0 = 1 -> acl_frame p ->
  step c t (AclData p) = Done t [AclToHost p; Event (NumberOfCompletedPackets (handle_of p) 1)].
Proof. intros R L F. apply acl_echo; [| exact F]. rewrite (history_mode c _ h t R). exact L. Qed.

Lemma history_sco_echo c w h t p : ran c (start W c w) h t -> last_loopback h 0 = 1 -> writes_in_range c FlowControl h ->
  sco_frame p -> no_reserved p ->
  step c t (ScoData p) = Done t (ScoToHost p ::
    (if list_eqb (last_value FlowControl h [0]) [1] then [Event (NumberOfCompletedPackets (handle_of p) 1)] else [])).
Proof.
  intros R L K F N. rewrite sco_echo; [| rewrite (history_mode c _ h t R); exact L | exact F | exact N].
  rewrite (history_keeps c FlowControl _ h t R K). reflexivity.
Qed.

Lemma history_acl_routed c w h t p : ran c (start W c w) h t -> last_loopback h 0 <> 1 -> acl_frame p ->
  step c t (AclData p) = Done t
    [if handle_of p <? 0x100 then AclToBredr p
     else if (0x200 <=? handle_of p) && (handle_of p <? 0x300) then AclToLe p
     else Event (NumberOfCompletedPackets (handle_of p) 1)].
Proof. intros R L F. apply acl_routed; [| exact F]. rewrite (history_mode c _ h t R). exact L. Qed.

Lemma history_sco_routed c w h t p : ran c (start W c w) h t -> last_loopback h 0 <> 1 -> sco_frame p ->
  step c t (ScoData p) = Done t [ScoToBredr p].
Proof.
  intros R L [B [G E]].
  assert (M : mode W t <> 1) by (rewrite (history_mode c _ h t R); exact L).
  cbn [Hci.step]. unfold sco_data.
  destruct p as [| lo [| hi [| n rest]]]; try (unfold lenN in G; cbn in G; lia).
  cbn [nth] in E. rewrite !lenN_cons in E.
  assert (S : n = lenN rest) by lia.
  unfold sco_parse. rewrite S, N.ltb_irrefl, andb_false_r.
  unfold ENABLE_LOCAL. now rewrite (proj2 (N.eqb_neq _ _) M).
Qed.

End Any.
