(** Lemmas about the whole mask of supported commands. *)
From Verif Require Import Prelude HciTables Hci HciSpec HciProofs HciHistory HciMaskSpec.
Open Scope N_scope.

Lemma all_table : forallb (fun e => match e with (op, octet, bit) =>
    match assoc known op with Some i => (i / 10 =? octet) && (i mod 10 =? bit) | None => false end &&
    negb (is_vendor op) && negb (op =? READ_LOCAL_SUPPORTED_COMMANDS) &&
    match assoc handlers op with
    | Some r => match does r with Refused | Apcf | Csr | Capabilities | Injects | IntelRead => false | Constant l => match l with [] => false | _ => true end | _ => true end
    | None => true end end) all_positions = true.
Proof. vm_compute. reflexivity. Qed.

Lemma any_position op octet bit : In (op, octet, bit) all_positions ->
  (forall c, supported c op = shown (commands c) octet bit) /\
  (forall r, assoc handlers op = Some r ->
     match does r with Refused | Apcf | Csr | Capabilities | Injects | IntelRead | Constant [] => False | _ => True end).
Proof.
  intros I. generalize all_table. rewrite forallb_forall. intros T. specialize (T _ I). cbn beta iota in T.
  apply andb_true_iff in T. destruct T as [T T4]. apply andb_true_iff in T. destruct T as [T T3].
  apply andb_true_iff in T. destruct T as [T1 T2].
  apply negb_true_iff in T2, T3. split.
  - intros c. unfold supported. rewrite T2, T3. cbn [andb orb].
    destruct (assoc known op) as [i |]; [| discriminate].
    apply andb_true_iff in T1. destruct T1 as [E1 E2]. apply N.eqb_eq in E1, E2. subst.
    reflexivity.
  - intros r A. rewrite A in T4. destruct (does r); try exact Logic.I; try discriminate.
    destruct l; [discriminate | exact Logic.I].
Qed.

(** The table of the source has no other command *)
Lemma known_table : forallb (fun e => (fst e =? READ_LOCAL_SUPPORTED_COMMANDS) ||
    existsb (fun q => fst (fst q) =? fst e) all_positions) known = true.
Proof. vm_compute. reflexivity. Qed.

Lemma no_position_unsupported c op : op <> 0x1002 -> ~ vendor op -> ~ has_position op -> supported c op = false.
Proof.
  intros R V P. unfold supported. rewrite (proj2 (N.eqb_neq op READ_LOCAL_SUPPORTED_COMMANDS) R). cbn [orb].
  assert (is_vendor op = false) as ->.
  { unfold is_vendor. rewrite N.shiftr_div_pow2. apply N.eqb_neq. exact V. }
  cbn [andb]. destruct (assoc known op) as [i|] eqn:A; [|reflexivity]. exfalso. apply assoc_in in A.
  generalize known_table. rewrite forallb_forall. intros T. specialize (T _ A). cbn [fst] in T.
  apply orb_true_iff in T as [T|T]; [apply N.eqb_eq in T; now apply R|].
  apply existsb_exists in T as ([[o octet] bit] & I & E). cbn [fst] in E. apply N.eqb_eq in E. subst o.
  apply P. now exists octet, bit.
Qed.

(** Each bit governs one command *)
Fixpoint distinct (l : list (N * N)) : bool :=
  match l with
  | [] => true
  | (x, y) :: l' => negb (existsb (fun e => (fst e =? x) && (snd e =? y)) l') && distinct l'
  end.
Lemma distinct_spec l : distinct l = true -> NoDup l.
Proof.
  induction l as [|[x y] l IH]; [constructor|]. cbn [distinct]. intro H. apply andb_true_iff in H as [H D].
  constructor; [|now apply IH]. intro I. apply negb_true_iff in H.
  rewrite (proj2 (existsb_exists _ _)) in H; [discriminate|]. exists (x, y). split; [exact I|]. cbn. now rewrite !N.eqb_refl.
Qed.
Lemma bits_table : distinct (map (fun e => (snd (fst e), snd e)) all_positions) = true.
Proof. vm_compute. reflexivity. Qed.
Lemma same_image {A B} (f : A -> B) l x y : NoDup (map f l) -> In x l -> In y l -> f x = f y -> x = y.
Proof.
  induction l as [|z l IH]; [contradiction|]. cbn [map]. intro D. inversion D as [|? ? N D']; subst.
  intros [->|I] [->|J] E; [reflexivity| | |now apply IH].
  - elim N. rewrite E. now apply in_map.
  - elim N. rewrite <- E. now apply in_map.
Qed.
Theorem bit_governs_one op1 op2 octet bit : In (op1, octet, bit) all_positions -> In (op2, octet, bit) all_positions -> op1 = op2.
Proof.
  intros I J. pose proof (same_image _ _ _ _ (distinct_spec _ bits_table) I J eq_refl) as E. now injection E.
Qed.

Section Any.
Variable W : Type.
Variable inner : N -> list N -> W -> option (answer W).
Variable exact : bool.

Theorem any_hidden_refused c s p op octet bit : In (op, octet, bit) all_positions -> opcode p = op ->
  operational c s -> sound exact p -> shown (commands c) octet bit = false ->
  command W inner exact c s p = Done W s [Event (CommandComplete 1 op [1])].
Proof.
  intros I <- O S H. apply unsupported_refused; [exact O|exact S|].
  destruct (any_position _ _ _ I) as [Sp _]. now rewrite Sp.
Qed.

Theorem any_offered_executed c s p op octet bit s' l : In (op, octet, bit) all_positions -> opcode p = op ->
  operational c s -> sound exact p -> shown (commands c) octet bit = true -> strict c = true ->
  (forall o b w a, inner o b w = Some a -> status W a <> 1) ->
  command W inner exact c s p = Done W s' l -> no_refusal op l.
Proof.
  intros I E O S H. destruct (any_position _ _ _ I) as [Sp K]. apply supported_executed; try assumption. now rewrite Sp.
Qed.

Theorem no_position_refused c s p : opcode p <> 0x1002 -> ~ vendor (opcode p) -> ~ has_position (opcode p) ->
  operational c s -> sound exact p ->
  command W inner exact c s p = Done W s [Event (CommandComplete 1 (opcode p) [1])].
Proof. intros R V P O S. apply unsupported_refused; [exact O|exact S|]. now apply no_position_unsupported. Qed.
End Any.
