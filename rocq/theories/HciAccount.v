(** Lemmas: each command is settled once. *)
From Verif Require Import Prelude HciTables Hci HciSpec HciProofs HciHistory HciAccountSpec.
Open Scope N_scope.

Section Any.

Variable W : Type.
Variable inner : N -> list N -> W -> option (answer W).
Variable exact : bool.

Notation command := (command W inner exact).
Notation serve := (serve W inner exact).
Notation parse := (parse exact).
Notation fits := (fits exact).
Notation step := (step W inner exact).
Notation ran := (ran W inner exact).
Notation Done := (Done W).
Notation Abort := (Abort W).
Notation Undefined := (Undefined W).

Lemma settled_app l m : settled (l ++ m) = settled l ++ settled m.
Proof. unfold settled. apply filter_app. Qed.
Lemma settled_raised (l : list (N * list N)) : settled (map (fun e => Event (Other (fst e) (snd e))) l) = [].
Proof. induction l; [reflexivity|exact IHl]. Qed.

(** The only effect of [l] that settles anything answers the command [op] *)
Definition answers_once (op : N) (l : list effect) : Prop :=
  exists e, settled l = [e] /\ match e with
    | Event (CommandComplete n o _) | Event (CommandStatus _ n o) => n = 1 /\ o = op | _ => False end.

Lemma ask_once s op b f s' l : (forall a, answers_once op (f a)) -> ask W inner s op b f = Done s' l -> answers_once op l.
Proof.
  intros F. unfold ask. destruct (inner op b (world W s)) as [a|]; [|discriminate]. intros [= <- <-].
  destruct (F a) as (e & E & H). exists e. split; [|exact H]. now rewrite settled_app, settled_raised, E.
Qed.

Ltac answered := eexists; split; [reflexivity|split; reflexivity].
Ltac asked H := revert H; apply ask_once; intros; answered.

Lemma served c s k op b p s' l : serve c s k op b p = Done s' l ->
  match k with
  | ToManager => l = [ToLinkManager p]
  | ToLayer => l = [ToLinkLayer p]
  | Disconnects => answers_once op l \/ is_cis (le16 b mod 4096) = true /\ l = [ToLinkLayer p]
  | Csr => answers_once op l \/ has_csr c = true /\ exists v, l = [Event (VendorSpecific v)]
  | Injects | Apcf => answers_once op l \/ tolerant c = true /\ settled l = [Event (HardwareError 0x43)]
  | _ => answers_once op l
  end.
Proof.
  intros H. destruct k; cbn [Hci.serve] in H.
  - asked H.
  - asked H.
  - injection H as <- <-. answered.
  - injection H as <- <-. answered.
  - now injection H as <- <-.
  - now injection H as <- <-.
  - injection H as <- <-. answered.
  - destruct (accepted c s0 b); [|injection H as <- <-; answered].
    destruct (inner op b (world W s)); [|discriminate]. injection H as <- <-. answered.
  - destruct (is_cis _); [injection H as <- <-; right; now split|]. left.
    destruct (_ || _); [asked H|injection H as <- <-; answered].
  - injection H as <- <-. answered.
  - destruct (inner op b (world W s)) as [a |]; [|discriminate]. injection H as <- <-.
    destruct (status W a =? 0); answered.
  - destruct (inner op b (world W s)) as [a |]; [|discriminate]. injection H as <- <-.
    destruct (status W a =? 0); answered.
  - destruct (inner op b (world W s)) as [a |]; [|discriminate]. injection H as <- <-. answered.
  - destruct (nth 0 b 0 =? 0); [injection H as <- <-; answered|discriminate].
  - injection H as <- <-. answered.
  - injection H as <- <-. answered.
  - destruct (inner op b (world W s)) as [a |]; [|discriminate]. injection H as <- <-. answered.
  - destruct (3 <=? nth 0 b 0); [discriminate|]. asked H.
  - injection H as <- <-. answered.
  - unfold injects, invalid in H.
    repeat match type of H with context [if ?x then _ else _] => destruct x eqn:? end; try discriminate;
      injection H as <- <-; solve [left; answered|right; split; reflexivity].
  - destruct (negb (has_apcf c)); [injection H as <- <-; left; answered|].
    unfold apcf, invalid in H. destruct (apcf_layout (nth 0 b 0)).
    + destruct (negb (fits l0 b)).
      { destruct (tolerant c); [|discriminate]. injection H as <- <-. right. now split. }
      destruct (apcf_asserts exact b); [discriminate|]. left. asked H.
    + destruct (tolerant c); [|discriminate]. injection H as <- <-. left. answered.
  - unfold csr in H. destruct (has_csr c) eqn:X; [|injection H as <- <-; left; answered]. cbn [negb] in H.
    destruct (csr_access b) as [b'|]; [|discriminate]. destruct (lenN b' <? 3); [discriminate|].
    destruct (inner op b (world W s)); [|discriminate]. injection H as <- <-. right. split; [reflexivity|]. now eexists.
  - unfold intel_read in H. destruct (negb (lenN b =? 2)); [discriminate|].
    destruct (le16 b =? 0x0204); injection H as <- <-; answered.
  - unfold intel_write in H. destruct (negb (ddc _ b)); [discriminate|].
    destruct (inner op b (world W s)); [|discriminate]. injection H as <- <-. answered.
  - destruct (negb (has_capabilities c)); [injection H as <- <-; answered|]. asked H.
Qed.

Lemma once_well c m r p l : answers_once (opcode p) l -> exists e, settled l = [e] /\ settled_well c m r p e.
Proof. intros (e & E & H). exists e. split; [exact E|]. destruct e as [[]| | | | | | | | | |]; try contradiction; exact H. Qed.

Lemma invalid_well c m r s p s' l : invalid W c s p = Done s' l -> exists e, settled l = [e] /\ settled_well c m r p e.
Proof.
  unfold invalid. destruct (tolerant c) eqn:T; [|discriminate]. intros [= <- <-]. eexists. split; [reflexivity|].
  right. now split.
Qed.

Theorem command_settled c s p s' l : command c s p = Done s' l ->
  exists e, settled l = [e] /\ settled_well c (mode W s) (was_reset W s) p e.
Proof.
  intros H. unfold Hci.command in H. destruct (parse p) as [[op b]|] eqn:P; [|exact (invalid_well _ _ _ _ _ _ _ H)].
  destruct (parse_some exact _ _ _ P) as [-> ->].
  destruct (looped W s (opcode p)) eqn:LO.
  { injection H as <- <-. eexists. split; [reflexivity|]. split; [reflexivity|].
    unfold looped in LO. apply andb_true_iff in LO as [M N]. split; [now apply N.eqb_eq in M|].
    intro I. apply mem_in in I. unfold mem, never_looped in I.
    unfold RESET, SET_CONTROLLER_TO_HOST_FLOW_CONTROL, HOST_BUFFER_SIZE, HOST_NUMBER_OF_COMPLETED_PACKETS, READ_BUFFER_SIZE, READ_LOOPBACK_MODE, WRITE_LOOPBACK_MODE in N.
    rewrite I in N. discriminate. }
  destruct (_ && _ && _) eqn:Q in H.
  { injection H as <- <-. eexists. split; [reflexivity|]. left. apply andb_true_iff in Q as [Q Q3].
    apply andb_true_iff in Q as [Q1 Q2]. apply negb_true_iff in Q2, Q3. apply N.eqb_neq in Q3. repeat split; assumption. }
  assert (U : Done s [unknown (opcode p)] = Done s' l -> exists e, settled l = [e] /\ settled_well c (mode W s) (was_reset W s) p e).
  { intros [= <- <-]. eexists. split; [reflexivity|]. split; reflexivity. }
  destruct (supported c (opcode p)); [|exact (U H)].
  destruct (assoc handlers (opcode p)) as [r|] eqn:A; [|destruct (strict c); [discriminate|exact (U H)]].
  destruct (checked (does r) && _); [exact (invalid_well _ _ _ _ _ _ _ H)|].
  rewrite (reply_own _ _ A) in H. pose proof (served _ _ _ _ _ _ _ _ H) as S. pose proof (kind_of _ _ A) as K.
  destruct (does r); try (apply once_well; exact S).
  - subst l. eexists. split; [reflexivity|]. now split.
  - subst l. eexists. split; [reflexivity|]. split; [reflexivity|]. now left.
  - destruct S as [S|[C ->]]; [now apply once_well|]. eexists. split; [reflexivity|]. split; [reflexivity|]. right.
    split; [exact K|]. now apply (proj1 (cis_spec W inner _)).
  - destruct S as [S|[T S]]; [now apply once_well|]. eexists. split; [exact S|]. right. now split.
  - destruct S as [S|[T S]]; [now apply once_well|]. eexists. split; [exact S|]. right. now split.
  - destruct S as [S|[T [v ->]]]; [now apply once_well|]. eexists. split; [reflexivity|]. now split.
Qed.

Lemma answers_settled l : answers l = answers (settled l).
Proof.
  induction l as [|e l IH]; [reflexivity|]. unfold settled. cbn [filter]. fold (settled l).
  destruct e as [[]| | | | | | | | | |]; cbn; rewrite ?IH; reflexivity.
Qed.
Lemma answer_settled l : existsb is_answer l = existsb is_answer (settled l).
Proof.
  induction l as [|e l IH]; [reflexivity|]. unfold settled. cbn [filter]. fold (settled l).
  destruct e as [[]| | | | | | | | | |]; cbn; rewrite ?IH; reflexivity.
Qed.

Theorem history_due c s h t : ran c s h t -> answers (all_effects h) = due h.
Proof.
  induction 1 as [s|s i l s' h t S R IH]; [reflexivity|]. unfold all_effects. cbn [flat_map snd]. rewrite answers_app.
  fold (all_effects h). rewrite IH. destruct i as [p|p|p]; cbn [due].
  - f_equal. destruct (command_settled _ _ _ _ _ S) as (e & E & H). rewrite answers_settled, answer_settled, E.
    destruct e as [[]| | | | | | | | | |]; try contradiction; try reflexivity; destruct H as [-> ->]; reflexivity.
  - pose proof (data_answers W inner exact _ _ _ _ _ S) as D. cbn in D. now rewrite D.
  - pose proof (data_answers W inner exact _ _ _ _ _ S) as D. cbn in D. now rewrite D.
Qed.

Theorem history_settled c s h t : ran c s h t ->
  Forall2 (fun p e => exists m r, settled_well c m r p e) (commands_in h) (settled_in h).
Proof.
  induction 1 as [s|s i l s' h t S R IH]; [constructor|]. unfold commands_in, settled_in. cbn [flat_map fst snd].
  fold (commands_in h). fold (settled_in h). destruct i as [p|p|p]; try exact IH.
  destruct (command_settled _ _ _ _ _ S) as (e & E & H). rewrite E. cbn [app]. constructor; [|exact IH].
  now exists (mode W s), (was_reset W s).
Qed.

(** A data packet settles nothing; it may be rejected *)
Theorem data_settled c s i s' l : step c s i = Done s' l ->
  match i with Command _ => True | _ => settled l = [] \/ settled l = [Event (HardwareError 0x43)] /\ tolerant c = true end.
Proof.
  destruct i as [p | p | p]; [trivial | |]; cbn [Hci.step].
  - unfold acl_data. destruct (acl_parse exact p) as [[[[h pb] bc] d] |].
    + intro H. left. destruct (mode W s =? _); [now injection H as <- <-|]. destruct (is_acl h); [now injection H as <- <-|].
      destruct (is_le_acl h); now injection H as <- <-.
    + unfold invalid. destruct (tolerant c); [|discriminate]. intros [= <- <-]. right. now split.
  - unfold sco_data. destruct (sco_parse exact p) as [[[h f] d] |].
    + intro H. left. destruct (mode W s =? _); [|now injection H as <- <-]. injection H as <- <-. destruct (list_eqb _ _); reflexivity.
    + unfold invalid. destruct (tolerant c); [|discriminate]. intros [= <- <-]. right. now split.
Qed.

End Any.
