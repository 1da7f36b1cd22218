(** Proofs about channel sounding. *)
From Verif Require Import Prelude Table Cs CsSpec.
Open Scope N_scope.
Ltac Zify.zify_post_hook ::= Z.div_mod_to_equations.

Ltac crack H :=
  repeat match type of H with
  | context [match ?x with _ => _ end] => destruct x eqn:?; cbn beta iota in H; try discriminate H
  end.
Lemma tuple4 {A B C D} (a a' : A) (b b' : B) (c c' : C) (d d' : D) : (a, b, c, d) = (a', b', c', d') -> a' = a /\ b' = b /\ c' = c /\ d' = d.
Proof. now intros [= -> -> -> ->]. Qed.
Lemma some3 {A B C} (a a' : A) (b b' : B) (c c' : C) : Some (a, b, c) = Some (a', b', c') -> a' = a /\ b' = b /\ c' = c.
Proof. now intros [= -> -> ->]. Qed.
Ltac command_cases H :=
  unfold do_command in H; cbv zeta in H; crack H; unfold refuse in H; apply tuple4 in H; destruct H as (-> & -> & -> & ->).
Ltac receive_cases H :=
  unfold do_receive in H; cbv zeta in H; crack H; apply some3 in H; destruct H as (-> & -> & ->).
Ltac step_cases H :=
  unfold step in H;
  match type of H with
  | context [match ?o with Host _ _ _ => _ | Deliver _ _ => _ | Encrypt => _ end] => destruct o as [[] tm c|[] m|]
  end;
  [ match type of H with context [do_command ?m ?e ?c] => destruct (do_command m e c) as [[[e' st'] ps'] ev'] eqn:D end; injection H as <- <- <- <-
  | match type of H with context [do_command ?m ?e ?c] => destruct (do_command m e c) as [[[e' st'] ps'] ev'] eqn:D end; injection H as <- <- <- <-
  | match type of H with context [match to_cen ?s with _ => _ end] => destruct (to_cen s) as [|q rest] eqn:T end;
      [injection H as <- <- <- <-|match type of H with context [do_receive ?m ?e ?c] => destruct (do_receive m e c) as [[[e' ps'] ev']|] eqn:D end; [|discriminate H]; injection H as <- <- <- <-]
  | match type of H with context [match to_per ?s with _ => _ end] => destruct (to_per s) as [|q rest] eqn:T end;
      [injection H as <- <- <- <-|match type of H with context [do_receive ?m ?e ?c] => destruct (do_receive m e c) as [[[e' ps'] ev']|] eqn:D end; [|discriminate H]; injection H as <- <- <- <-]
  | injection H as <- <- <- <- ].

(** * The standing of a configuration *)
Definition standing_in (t : table config) (id : N) : standing :=
  match lookup t id with
  | None => Absent
  | Some c => match params c with None => Created | Some _ => if enabled c then Running else Ready end
  end.
(** A configuration without parameters is not enabled *)
Definition sound (t : table config) : Prop := forall id c, lookup t id = Some c -> params c = None -> enabled c = false.

Lemma lookup_map (f : N * config -> config) t id : lookup (map (fun x => (fst x, f x)) t) id = match lookup t id with Some c => Some (f (id, c)) | None => None end.
Proof.
  induction t as [|[k c] t IH]; [reflexivity|]. cbn. destruct (k =? id) eqn:E; [|exact IH]. apply N.eqb_eq in E. now subst.
Qed.
Lemma standing_map f t id : (forall x, params (f x) = params (snd x)) -> (forall x, enabled (f x) = enabled (snd x)) ->
  standing_in (map (fun x => (fst x, f x)) t) id = standing_in t id.
Proof. intros P E. unfold standing_in. rewrite lookup_map. destruct (lookup t id) as [c|]; [|reflexivity]. rewrite P, E. reflexivity. Qed.
Lemma standing_put t i c id : standing_in (put t i c) id = if i =? id then match params c with None => Created | Some _ => if enabled c then Running else Ready end else standing_in t id.
Proof. unfold standing_in. rewrite lookup_put, N.eqb_sym. destruct (i =? id); reflexivity. Qed.
Lemma standing_erase t i id : standing_in (erase t i) id = if i =? id then Absent else standing_in t id.
Proof. unfold standing_in. rewrite lookup_erase, N.eqb_sym. destruct (i =? id); reflexivity. Qed.

Lemma side_refl x : side_eqb x x = true. Proof. now destruct x. Qed.

Lemma if_same {A} (b : bool) (x : A) : (if b then x else x) = x. Proof. now destruct b. Qed.

Lemma command_standing x tm e c e' st ps ev g id : do_command tm e c = (e', st, ps, ev) ->
  standing_in (configs e') id = after_entry x id (Entry (Host x tm c) g st ps ev) (standing_in (configs e) id).
Proof.
  intros H. unfold after_entry. cbn [what status_of]. rewrite side_refl. cbn [negb orb].
  destruct c; command_cases H; cbn [configs with_role_enable with_fae with_remote with_configs with_keyed with_last_map];
    rewrite ?standing_put, ?standing_erase, ?standing_map by reflexivity; cbn [params enabled N.eqb SUCCESS negb];
    rewrite ?if_same; try reflexivity.
  all: cbn. all: try match goal with H : configs ?y = _ |- _ => now rewrite H end.
  all: try match goal with H : (procedure_status _ _ =? _) = false |- _ => now rewrite H end.
  all: try reflexivity.
  all: destruct (_ =? id) eqn:E; [|reflexivity]; apply N.eqb_eq in E; subst; unfold standing_in; rewrite Heqo, Heqo0, Heqb; reflexivity.
Qed.
Lemma receive_standing x m e q e' ps ev st id : do_receive m e q = Some (e', ps, ev) ->
  standing_in (configs e') id = after_entry x id (Entry (Deliver x m) (Some q) st ps ev) (standing_in (configs e) id).
Proof.
  intros H. unfold after_entry. cbn [what status_of got sent]. rewrite side_refl. cbn [negb orb].
  destruct q; receive_cases H; cbn [configs with_role_enable with_fae with_remote with_configs with_keyed with_secured with_last_map];
    rewrite ?standing_put, ?standing_erase, ?standing_map by (intros []; cbn; try destruct (enabled _); reflexivity); cbn [params enabled N.eqb SUCCESS negb];
    rewrite ?if_same; try reflexivity.
  all: try match goal with H : (_ =? _) = _ |- _ => rewrite ?H in * end; try (destruct (_ =? id); reflexivity).
  - unfold nonzero in Heqb. rewrite Heqb, andb_true_r. reflexivity.
  - unfold nonzero in Heqb. rewrite Heqb, andb_false_r. reflexivity.
  - destruct (id0 =? id) eqn:E; [|reflexivity]. apply N.eqb_eq in E. subst. cbn. unfold standing_in. rewrite Heqo. now destruct (negb _).
  - rewrite (standing_map (fun x => if enabled (snd x) then set_map map (snd x) else snd x)); [reflexivity| |]; intros [? y]; cbn; destruct (enabled y) eqn:Q; cbn; congruence.
Qed.
Lemma command_other x y tm c g st ps ev id w : side_eqb x y = false -> after_entry x id (Entry (Host y tm c) g st ps ev) w = w.
Proof. intros E. unfold after_entry. cbn. now rewrite E. Qed.
Lemma receive_other x y m g st ps ev id w : side_eqb x y = false -> after_entry x id (Entry (Deliver y m) g st ps ev) w = w.
Proof. intros E. unfold after_entry. cbn. now rewrite E. Qed.

Lemma step_standing x s o s' st ps ev id : step s o = Some (s', st, ps, ev) ->
  standing_in (configs (end_of x s')) id = after_entry x id (Entry o (delivered s o) st ps ev) (standing_in (configs (end_of x s)) id).
Proof.
  intros H. step_cases H; unfold delivered; rewrite ?T; cbn [hd_error].
  - destruct x; [exact (command_standing Central _ _ _ _ _ _ _ None id D)|rewrite command_other by reflexivity; reflexivity].
  - destruct x; [rewrite command_other by reflexivity; reflexivity|exact (command_standing Peripheral _ _ _ _ _ _ _ None id D)].
  - unfold after_entry. cbn. destruct (negb _); reflexivity.
  - destruct x; [exact (receive_standing Central _ _ _ _ _ _ _ id D)|rewrite receive_other by reflexivity; reflexivity].
  - unfold after_entry. cbn. destruct (negb _); reflexivity.
  - destruct x; [rewrite receive_other by reflexivity; reflexivity|exact (receive_standing Peripheral _ _ _ _ _ _ _ id D)].
  - destruct x; reflexivity.
Qed.
Lemma history_standing c p h s x id : history (connected c p) h s -> standing_of x id h = standing_in (configs (end_of x s)) id.
Proof.
  induction 1 as [|h s o s' st ps ev H IH S]; [destruct x; reflexivity|]. cbn [standing_of]. rewrite IH. symmetry. now apply step_standing.
Qed.

(** Procedure Enable *)
Lemma enable_exact c p h s x tm id on s' st ps ev : history (connected c p) h s -> step s (Host x tm (ProcedureEnable id on)) = Some (s', st, ps, ev) ->
  ev = [] /\
  match standing_of x id h with
  | Absent => st = INVALID_HCI_COMMAND_PARAMETERS /\ ps = [] /\ s' = s
  | Created | Running => st = COMMAND_DISALLOWED /\ ps = [] /\ s' = s
  | Ready => st = SUCCESS /\ (if on then exists len, ps = [CsReq id len] else ps = [TermReq id SUCCESS])
  end.
Proof.
  intros H S. rewrite (history_standing _ _ _ _ x id H). unfold standing_in.
  unfold step in S.
  destruct (lookup (configs (end_of x s)) id) as [k|] eqn:L; [destruct (params k) as [q|] eqn:P; [destruct (enabled k) eqn:N; [|destruct on]|]|].
  all: destruct x; cbn [end_of] in L; cbn [do_command] in S; rewrite L in S; rewrite ?P in S; rewrite ?N in S; cbn in S; injection S as <- <- <- <-; rewrite ?app_nil_r.
  all: split; [reflexivity|]; repeat split; try (now destruct s); eauto.
Qed.
