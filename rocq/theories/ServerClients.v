(** Proofs about what each kind of client gets. *)
From Coq Require Import String.
From Verif Require Import Prelude Table Address PhyModel PhyModelSpec PhyModelProofs PhyModelTopology TestCommand TestCommandProofs Server ServerSpec ServerProofs.
Open Scope N_scope.

Section Clients.
Context {C : Type}.
Variable standard : C.
Notation state := (state C).
Notation obs := (obs C).
Variables (config : option (list C)) (binds : nat -> bool) (sniffer : bool) (prefix : list N).
Notation hist := (history standard config binds sniffer prefix).

(** ** Controllers *)

Lemma socket_unique (s : state) d e a b : Inv s -> lookup (owners s) d = Some a -> lookup (owners s) e = Some b ->
  socket a = socket b -> d = e.
Proof.
  intros I A B E. pose proof (i_sockets _ I) as Q. unfold sockets in Q.
  assert (Q1 : NoDup (map (fun e => socket (snd e)) (owners s))).
  { clear -Q. induction (map _ (owners s)) as [|x l IH]; [constructor|]. inversion Q; subst. constructor; [|auto].
    intros K. apply H1. apply in_app_iff. now left. }
  apply lookup_pair in A, B. clear -Q1 A B E. induction (owners s) as [|[k o] l IH]; [destruct A|].
  cbn in Q1. inversion Q1 as [|? ? N1 N2]; subst. destruct A as [A|A], B as [B|B].
  - congruence.
  - exfalso. injection A as -> ->. apply N1. rewrite E. now apply (in_map (fun e => socket (snd e))) in B.
  - exfalso. injection B as -> ->. apply N1. rewrite <- E. now apply (in_map (fun e => socket (snd e))) in A.
  - now apply IH.
Qed.
Lemma own_controller l s o d e c i j : hist l s o -> controller_of s d c i -> controller_of s e c j -> d = e /\ i = j.
Proof.
  intros H [a A] [b B]. apply inv_history in H.
  assert (d = e) as -> by (eapply socket_unique; [exact H|exact A|exact B|reflexivity]).
  split; [reflexivity|congruence].
Qed.

(** A host gets its controller. *)
Lemma attach l s o c i conf ok reach : hist l s o -> running s = Some (Attach c i conf) ->
  (reuse (sim s) = true -> exists a, with_prefix (PhyModel.prefix (sim s)) a /\ forall d, address_of (sim s) d <> Some a) ->
  exists s' d, step_event s (Finish ok reach) = Next s' [Created d c conf] /\ ~ present (sim s) d /\
    lookup (owners s') d = Some (Host c i (Some conf)) /\
    (forall e, e <> d -> lookup (owners s') e = lookup (owners s) e) /\
    (forall e, present (sim s') e <-> present (sim s) e \/ e = d) /\
    (forall x e, e <> d -> attachments (sim s') x e = attachments (sim s) x e) /\
    (forall x, In x (keys (layers (sim s))) -> attachments (sim s') x d = 1%nat) /\
    (reuse (sim s) = true -> exists a, address_of (sim s') d = Some a /\ forall e, address_of (sim s) e <> Some a).
Proof.
  intros H R U. apply inv_history in H as I. pose proof (i_sim _ I) as RS.
  cbn [step_event]. unfold do_finish. rewrite R. cbn [sim set_tasks queue owners].
  destruct (step (sim s) (AddHci None)) as [m|] eqn:S.
  - exists (set_sim C m (put (owners s) (next_dev (sim s)) (Host c i (Some conf))) (set_tasks C (queue s) None s)), (next_dev (sim s)).
    split; [reflexivity|]. split; [now apply fresh_absent|]. cbn [owners set_sim sim].
    split; [now rewrite lookup_put, N.eqb_refl|].
    split; [intros e E; rewrite lookup_put; apply N.eqb_neq in E; now rewrite E|].
    split; [intros e; exact (step_present _ _ _ RS S e)|].
    split; [intros x e E; rewrite (step_attachments _ _ _ RS S); cbn; apply N.eqb_neq in E; now rewrite E|].
    split.
    { intros x X. rewrite (step_attachments _ _ _ RS S). cbn. rewrite N.eqb_refl. apply in_lookup in X as [y ->]. reflexivity. }
    intros RU. destruct (add_hci_address _ _ RS RU S) as (d & a & N1 & A & _ & O).
    assert (present m d) as P.
    { unfold present. unfold address_of in A. destruct (lookup (devices m) d) eqn:L; [|discriminate]. now apply lookup_in in L. }
    apply (step_present _ _ _ RS S) in P. cbn in P. destruct P as [P| ->]; [now elim N1|].
    exists a. split; [exact A|]. intros e E.
    destruct (N.eqb_spec e (next_dev (sim s))) as [->|NE].
    + unfold address_of in E. destruct (lookup (devices (sim s)) (next_dev (sim s))) eqn:L; [|discriminate].
      apply lookup_in in L. now apply fresh_absent in L.
    + destruct (O e NE) as [O1 O2]. congruence.
  - exfalso. apply (add_hci_hangs _ _ RS) in S as [S1 S2]. destruct (U S1) as (a & W & F).
    destruct (S2 a W) as (d & D). now apply (F d).
Qed.

(** A client of a link layer server gets a device on the channels of its type. *)
Lemma link_added l s o i c ty : hist l s o -> adding s = Some (i, c, ty) ->
  exists s' d, step_event s Added = Next s' [] /\ ~ present (sim s) d /\
    lookup (owners s') d = Some (Peer c ty) /\
    (forall e, e <> d -> lookup (owners s') e = lookup (owners s) e) /\
    (forall e, present (sim s') e <-> present (sim s) e \/ e = d) /\
    (forall x e, e <> d -> attachments (sim s') x e = attachments (sim s) x e) /\
    (forall x y, lookup (layers (sim s)) x = Some y -> attachments (sim s') x d = if phy_eqb (ltype y) ty then 1%nat else 0%nat).
Proof.
  intros H A. apply inv_history in H as I. pose proof (i_sim _ I) as RS.
  cbn [step_event]. unfold do_added, add_link. rewrite A. cbn [sim set_servers set_adding owners].
  destruct (step (sim s) (AddLinkLayer default_address ty)) as [m|] eqn:S; [|discriminate].
  eexists; exists (next_dev (sim s)). split; [reflexivity|]. split; [now apply fresh_absent|]. cbn [owners set_sim sim].
  split; [now rewrite lookup_put, N.eqb_refl|].
  split; [intros e E; rewrite lookup_put; apply N.eqb_neq in E; now rewrite E|].
  split; [intros e; exact (step_present _ _ _ RS S e)|].
  split; [intros x e E; rewrite (step_attachments _ _ _ RS S); cbn; apply N.eqb_neq in E; now rewrite E|].
  intros x y X. rewrite (step_attachments _ _ _ RS S). cbn. rewrite N.eqb_refl, X. now destruct (ltype y), ty.
Qed.

(** A closed device goes, and no other. *)
Lemma closed_removed l s o d ok reach : hist l s o -> running s = Some (Closed d) ->
  exists s', step_event s (Finish ok reach) = Next s' [] /\ ~ present (sim s') d /\ lookup (owners s') d = None /\
    (forall e, e <> d -> (present (sim s') e <-> present (sim s) e) /\ lookup (owners s') e = lookup (owners s) e /\
       forall x, attachments (sim s') x e = attachments (sim s) x e).
Proof.
  intros H R. apply inv_history in H as I. pose proof (i_sim _ I) as RS.
  cbn [step_event]. unfold do_finish. rewrite R. cbn [sim set_tasks queue owners].
  destruct (mem d (keys (devices (sim s)))) eqn:M.
  - unfold remove. cbn [sim set_tasks owners].
    destruct (step (sim s) (RemoveDevice d)) as [m|] eqn:S; [|discriminate].
    eexists. split; [reflexivity|]. cbn [owners set_sim sim].
    split; [rewrite (step_present _ _ _ RS S); cbn; tauto|]. split; [now rewrite lookup_erase, N.eqb_refl|].
    intros e E. split; [rewrite (step_present _ _ _ RS S); cbn; tauto|].
    split; [rewrite lookup_erase; apply N.eqb_neq in E; now rewrite E|].
    intros x. rewrite (step_attachments _ _ _ RS S). cbn. rewrite N.eqb_sym. apply N.eqb_neq in E. now rewrite E.
  - apply mem_false in M. eexists. split; [reflexivity|]. cbn. split; [exact M|].
    split; [|intros e _; repeat split; auto].
    destruct (lookup (owners s) d) eqn:L; [|reflexivity]. apply lookup_in in L. now apply (i_present _ I) in L.
Qed.

(** ** What the main thread still has to do is the end of its list *)

Definition all_actions : list action := actions (List.length (services standard config)) sniffer.
Lemma length_open : forall (l : list (service C)) i, List.length (open_all C binds i l) = List.length l.
Proof. induction l; intros; cbn; auto. Qed.
Lemma main_same (s s' : state) e o : step_event s e = Next s' o ->
  (todo s' = todo s) \/ (exists a, todo s = a :: todo s').
Proof.
  destruct e as [ok reach|i ok|i| |c name args|c| |l|ok reach]; cbn [step_event].
  - unfold do_main. destruct (todo s) as [|[i|name args|] l] eqn:T; [discriminate| | |]; intros H.
    + injection H as <- <-. right. cbn. eauto.
    + destruct (acting s).
      * apply command_frame in H as [F S]. rewrite (f_todo _ _ F). right. cbn. eauto.
      * destruct (_ || _); [discriminate|]. injection H as <- <-. now left.
    + destruct (acting s).
      * destruct (step _ _); [|discriminate]. injection H as <- <-. right. cbn. eauto.
      * destruct (_ || _); [discriminate|]. injection H as <- <-. now left.
  - unfold do_connect. destruct (adding s); [discriminate|].
    destruct (nth_error (servers s) i) as [v|] eqn:V; [|discriminate].
    destruct (listening v); [|discriminate]. intros H. left.
    destruct (offers v) as [|ty|conf] eqn:O; cbn [open set_servers set_next] in H;
    repeat match type of H with context [if ?x then _ else _] => destruct x; try discriminate end; injection H as <- <-; reflexivity.
  - destruct (adding s); [discriminate|]. destruct (nth_error (servers s) i); [|discriminate].
    destruct (listening s0); [|discriminate]. intros [= <- <-]. now left.
  - unfold do_added, add_link. destruct (adding s) as [[[i c] ty]|]; [|discriminate].
    destruct (step _ _); [|discriminate]. intros [= <- <-]. now left.
  - unfold do_request. destruct (adding s); [discriminate|]. destruct (mem c (watched s)); [|discriminate].
    intros [= <- <-]. now left.
  - unfold do_leave. destruct (adding s); [discriminate|]. destruct (mem c (watched s)); [|discriminate].
    intros [= <- <-]. now left.
  - unfold do_begin. destruct (running s) eqn:R; [discriminate|]. destruct (queue s) as [|t l] eqn:Q; [discriminate|].
    destruct (conflict C t s); [discriminate|]. intros [= <- <-]. now left.
  - unfold do_tick. destruct (running s) eqn:R; [discriminate|]. destruct (ticking (clock s)); [discriminate|].
    destruct (forallb _ l); [|discriminate]. destruct (conflict C _ s); [discriminate|]. intros [= <- <-]. now left.
  - unfold do_finish. destruct (running s) as [t|] eqn:R; [|discriminate]. intros H. left.
    destruct t as [c i conf|c name args|d| |l].
    + destruct (step _ _); [|discriminate]. now injection H as <- <-.
    + destruct (ends name).
      * cbn [ended set_tasks] in H. destruct (ended s); [discriminate|]. now injection H as <- <-.
      * apply command_frame in H as [F S]. now rewrite (f_todo _ _ F).
    + cbn [sim set_tasks] in H. destruct (mem d _); [|now injection H as <- <-].
      unfold remove in H. destruct (step _ _); [|discriminate]. now injection H as <- <-.
    + destruct (step _ _); [|discriminate]. now injection H as <- <-.
    + now injection H as <- <-.
Qed.

Lemma run_app (s : state) a b : run_events s (a ++ b) =
  match run_events s a with Next t o => match run_events t b with Next u p => Next u (o ++ p) | r => r end | r => r end.
Proof.
  revert s. induction a as [|e a IH]; intros s; cbn [app run_events].
  - destruct (run_events s b); reflexivity.
  - destruct (step_event s e) as [t o| | | |]; try reflexivity. rewrite IH.
    destruct (run_events t a) as [u p| | | |]; try reflexivity.
    destruct (run_events u b); try reflexivity. now rewrite app_assoc.
Qed.
(** Induction over histories, the last event last. *)
Lemma hist_ind (P : list event -> state -> list obs -> Prop) :
  P [] (start standard config binds sniffer prefix) [] ->
  (forall l s o e s' o', hist l s o -> P l s o -> step_event s e = Next s' o' -> P (l ++ [e]) s' (o ++ o')) ->
  forall l s o, hist l s o -> P l s o.
Proof.
  intros B S. induction l as [|e l IH] using rev_ind; unfold history; intros s o H.
  - injection H as <- <-. exact B.
  - rewrite run_app in H. destruct (run_events _ l) as [t p| | | |] eqn:R; try discriminate.
    cbn in H. destruct (step_event t e) as [u q| | | |] eqn:E; try discriminate. injection H as <- <-.
    rewrite app_nil_r. eapply S; eauto.
Qed.
Lemma todo_end l s o : hist l s o -> exists p, p ++ todo s = all_actions.
Proof.
  revert l s o. apply hist_ind.
  - exists []. unfold start, all_actions. cbn [todo app]. now rewrite length_open.
  - intros l s o e s' o' _ (p & P) S. apply main_same in S as [-> | (a & S)]; [now exists p|].
    exists (p ++ [a]). rewrite <- app_assoc. cbn. now rewrite <- S.
Qed.
Lemma in_actions a : In a all_actions -> match a with Call n args => In a topology | _ => True end.
Proof.
  unfold all_actions, actions. intros [<-|H]; [exact Logic.I|]. apply in_app_iff in H as [H|H]; [now destruct a|].
  apply in_app_iff in H as [H|H]; [apply in_map_iff in H as (i & <- & _); exact Logic.I|].
  destruct sniffer; [destruct H as [<-|[]]; exact Logic.I|destruct H].
Qed.

(** ** Controllers stay *)

Definition same_host (a b : option (owner C)) : Prop :=
  match a with Some (Host c i _) => exists conf, b = Some (Host c i conf) | _ => True end.
Lemma same_refl a : same_host a a.
Proof. destruct a as [[]|]; cbn; eauto. Qed.
Lemma same_trans a b c : same_host a b -> same_host b c -> same_host a c.
Proof. destruct a as [[x i y| |]|]; cbn; auto. intros [conf ->]. auto. Qed.

Lemma effect_keeps reach (s s' : state) f o d : Inv s -> effect_step C reach s f = Next s' o ->
  f <> ETopology (RemoveDevice d) -> In d (keys (owners s)) -> same_host (lookup (owners s) d) (lookup (owners s') d).
Proof.
  intros I H NE D. unfold effect_step in H. destruct f as [p|p|h p ty|e].
  - destruct p; unfold remove in H; try (destruct (step (sim s) _) as [m|] in H; [|discriminate]); injection H as <- <-;
    try apply same_refl. cbn [owners set_sim]. rewrite lookup_erase.
    destruct (N.eqb_spec d d0) as [->|]; [now elim NE|apply same_refl].
  - injection H as <- <-. apply same_refl.
  - destruct reach; [|injection H as <- <-; apply same_refl].
    unfold add_link in H. destruct (step _ _) in H; [|discriminate]. injection H as <- <-. cbn [owners set_sim set_next sim].
    rewrite lookup_put. destruct (N.eqb_spec d (next_dev (sim s))) as [->|]; [|apply same_refl].
    apply (i_present _ I) in D. now apply (fresh_absent _ (i_sim _ I)) in D.
  - injection H as <- <-. unfold reconfigure. destruct (lookup (owners s) e) as [[c i conf|c ty|c ty]|] eqn:L; try apply same_refl.
    cbn [owners set_sim]. rewrite lookup_put. destruct (N.eqb_spec d e) as [->|]; [rewrite L; cbn; eauto|apply same_refl].
Qed.
Lemma effect_owner_kept reach (s s' : state) f o d : effect_step C reach s f = Next s' o ->
  f <> ETopology (RemoveDevice d) -> In d (keys (owners s)) -> In d (keys (owners s')).
Proof.
  intros H NE D. unfold effect_step in H. destruct f as [p|p|h p ty|e].
  - destruct p; unfold remove in H; try (destruct (step (sim s) _) as [m|] in H; [|discriminate]); injection H as <- <-;
    try exact D. cbn [owners set_sim]. apply in_keys_erase. split; [exact D|congruence].
  - injection H as <- <-. exact D.
  - destruct reach; [|injection H as <- <-; exact D].
    unfold add_link in H. destruct (step _ _) in H; [|discriminate]. injection H as <- <-. cbn [owners set_sim set_next sim].
    apply in_keys_put. now right.
  - injection H as <- <-. unfold reconfigure. destruct (lookup (owners s) e) as [[c i conf|c ty|c ty]|] eqn:L; try exact D.
    cbn [owners set_sim]. apply in_keys_put. now right.
Qed.
Lemma effects_keep reach l d : forall (s s' : state) o, Inv s -> effects C reach s l = Next s' o ->
  ~ In (ETopology (RemoveDevice d)) l -> In d (keys (owners s)) -> same_host (lookup (owners s) d) (lookup (owners s') d).
Proof.
  induction l as [|f l IH]; cbn; intros s s' o I H NE D; [injection H as <- <-; apply same_refl|].
  destruct (effect_step C reach s f) eqn:E; try discriminate.
  eapply same_trans; [eapply effect_keeps; eauto|]. eapply IH; eauto.
  - eapply inv_effect; eauto.
  - eapply effect_owner_kept; eauto.
Qed.
Lemma removes_del name args l r d : handle name args = Ok l r -> In (ETopology (RemoveDevice d)) l ->
  name = str "del" /\ exists t rest, args = t :: rest /\ d = to_id (parse_int t).
Proof.
  intros H K. unfold handle in H.
  repeat match type of H with
  | context [if list_eqb name (str ?x) then _ else _] =>
      let E := fresh "E" in destruct (list_eqb name (str x)) eqn:E;
      [ match x with
        | "del"%string => apply list_eqb_eq in E; subst name; destruct args as [|t rest]; [discriminate|];
             injection H as <- <-; destruct K as [K|[]]; injection K as <-; split; [reflexivity|]; eauto
        | _ => exfalso;
          repeat match type of H with context [match ?y with _ => _ end] => destruct y; try discriminate end;
          injection H as <- <-; cbn in K; intuition discriminate
        end
      |]
  end.
  injection H as <- <-. destruct K.
Qed.

(** When a controller goes, it was closed, or a test command asked for it. *)
Lemma controller_kept l s o e s' o' d c i : hist l s o -> controller_of s d c i -> step_event s e = Next s' o' ->
  controller_of s' d c i \/
  (running s = Some (Closed d) \/ running s = Some Clear \/
   exists x t rest, running s = Some (Command x (str "del") (t :: rest)) /\ d = to_id (parse_int t)) /\
  exists ok reach, e = Finish ok reach.
Proof.
  intros H [conf L] S. pose proof (inv_history _ _ _ _ _ _ _ _ H) as I. destruct (todo_end _ _ _ H) as [p P].
  assert (D : In d (keys (owners s))) by now apply lookup_in in L.
  assert (KEEP : forall t : state, same_host (lookup (owners s) d) (lookup (owners t) d) -> controller_of t d c i).
  { intros t K. rewrite L in K. exact K. }
  assert (FRESH : forall w, same_host (lookup (owners s) d) (lookup (put (owners s) (next_dev (sim s)) w) d)).
  { intros w. rewrite lookup_put. destruct (N.eqb_spec d (next_dev (sim s))) as [->|]; [|apply same_refl].
    apply (i_present _ I) in D. now apply (fresh_absent _ (i_sim _ I)) in D. }
  assert (SAME : owners s' = owners s -> controller_of s' d c i) by (intros E; apply KEEP; rewrite E; apply same_refl).
  destruct e as [ok reach|j ok|j| |x name args|x| |q|ok reach]; cbn [step_event] in S.
  - left. unfold do_main in S. destruct (todo s) as [|[j|name args|] q] eqn:T; [discriminate| | |].
    + injection S as <- <-. now apply SAME.
    + destruct (acting s).
      * apply command_split in S as (k & r & HA & E & _). apply KEEP.
        apply (effects_keep reach k d _ _ _ (inv_congr s (set_main C q false s) I eq_refl eq_refl eq_refl eq_refl (N.le_refl _)) E); [|exact D].
        intros K. destruct (removes_del _ _ _ _ _ HA K) as [-> _].
        assert (In (Call (str "del") args) all_actions) as A by (rewrite <- P; apply in_app_iff; right; now left).
        apply in_actions in A. unfold topology in A. cbn [In] in A.
        repeat match goal with A : _ \/ _ |- _ => destruct A as [A|A]; [inversion A|] end. destruct A.
      * destruct (_ || _); [discriminate|]. injection S as <- <-. now apply SAME.
    + destruct (acting s).
      * destruct (step _ _); [|discriminate]. injection S as <- <-. now apply SAME.
      * destruct (_ || _); [discriminate|]. injection S as <- <-. now apply SAME.
  - left. unfold do_connect in S. destruct (adding s); [discriminate|].
    destruct (nth_error (servers s) j) as [v|] eqn:V; [|discriminate].
    destruct (listening v); [|discriminate].
    destruct (offers v) as [|ty|cf] eqn:O; cbn [open set_servers set_next] in S;
    repeat match type of S with context [if ?x then _ else _] => destruct x; try discriminate end; injection S as <- <-; now apply SAME.
  - left. destruct (adding s); [discriminate|]. destruct (nth_error (servers s) j); [|discriminate].
    destruct (listening s0); [|discriminate]. injection S as <- <-. now apply SAME.
  - left. unfold do_added, add_link in S. destruct (adding s) as [[[j x] ty]|]; [|discriminate].
    destruct (step _ _); [|discriminate]. injection S as <- <-. apply KEEP, FRESH.
  - left. unfold do_request in S. destruct (adding s); [discriminate|]. destruct (mem x (watched s)); [|discriminate].
    injection S as <- <-. now apply SAME.
  - left. unfold do_leave in S. destruct (adding s); [discriminate|]. destruct (mem x (watched s)); [|discriminate].
    injection S as <- <-. now apply SAME.
  - left. unfold do_begin in S. destruct (running s) eqn:R; [discriminate|]. destruct (queue s) as [|t q] eqn:Q; [discriminate|].
    destruct (conflict C t s); [discriminate|]. injection S as <- <-. now apply SAME.
  - left. unfold do_tick in S. destruct (running s) eqn:R; [discriminate|]. destruct (ticking (clock s)); [discriminate|].
    destruct (forallb _ q); [|discriminate]. destruct (conflict C _ s); [discriminate|]. injection S as <- <-. now apply SAME.
  - unfold do_finish in S. destruct (running s) as [t|] eqn:R; [|discriminate].
    destruct t as [x j cf|x name args|e| |q].
    + left. destruct (step _ _); [|discriminate]. injection S as <- <-. apply KEEP, FRESH.
    + destruct (ends name).
      * left. cbn [ended set_tasks] in S. destruct (ended s); [discriminate|]. injection S as <- <-. now apply SAME.
      * apply command_split in S as (k & r & HA & E & _).
        assert (DEC : {In (ETopology (RemoveDevice d)) k} + {~ In (ETopology (RemoveDevice d)) k}).
        { clear. induction k as [|f k IH]; [now right|]. destruct IH as [IH|IH]; [left; now right|].
          assert ({f = ETopology (RemoveDevice d)} + {f <> ETopology (RemoveDevice d)}) as [->|NE].
          { destruct f as [[]| | |]; try (right; discriminate). destruct (N.eq_dec d0 d) as [->|]; [now left|right; congruence]. }
          - left; now left. - right. intros [K|K]; auto. }
        destruct DEC as [K|K].
        { right. destruct (removes_del _ _ _ _ _ HA K) as (-> & t & rest & -> & ->). split; [|eauto]. right. right. exists x, t, rest. auto. }
        left. apply KEEP.
        refine (effects_keep reach k d _ _ _ (inv_congr s (set_tasks C (queue s) None s) I eq_refl eq_refl _ eq_refl (N.le_refl _)) E K D).
        unfold waiting. cbn. rewrite R. reflexivity.
    + cbn [sim set_tasks queue] in S. destruct (mem e _).
      * unfold remove in S. destruct (step _ _); [|discriminate]. injection S as <- <-.
        destruct (N.eq_dec d e) as [->|NE]; [right; split; [now left|eauto]|]. left. apply KEEP. cbn.
        rewrite lookup_erase. apply N.eqb_neq in NE. rewrite NE. apply same_refl.
      * left. injection S as <- <-. now apply SAME.
    + right. split; [auto|eauto].
    + left. injection S as <- <-. now apply SAME.
Qed.

(** A device is closed because it found its socket closed. *)
Definition closing (t : task C) : list N := match t with Closed e => [e] | Tick q => q | _ => [] end.
Definition tasks (s : state) : list (task C) := match running s with Some t => [t] | None => [] end ++ queue s.
Definition to_close (s : state) : list N := flat_map closing (tasks s).
Lemma closing_filter d e l : In d (flat_map closing (filter (fun t => negb (is_close C e t)) l)) -> In d (flat_map closing l).
Proof. rewrite !in_flat_map. intros (t & T & D). apply filter_In in T as [T _]. eauto. Qed.
Lemma step_closing (s s' : state) e o d : step_event s e = Next s' o -> In d (to_close s') ->
  In d (to_close s) \/ exists q, e = BeginTick q /\ In d q.
Proof.
  intros S K. unfold to_close, tasks in *.
  assert (SAME : running s' = running s -> queue s' = queue s -> In d (flat_map closing (match running s with Some t => [t] | None => [] end ++ queue s)))
    by (intros E1 E2; rewrite E1, E2 in K; exact K).
  assert (APP : forall t, running s' = running s -> queue s' = queue s ++ t -> flat_map closing t = [] -> In d (flat_map closing (match running s with Some t => [t] | None => [] end ++ queue s))).
  { intros t E1 E2 NI. rewrite E1, E2 in K. rewrite app_assoc, flat_map_app, NI, app_nil_r in K. exact K. }
  assert (CL : forall n, flat_map closing (repeat Clear n) = []) by (induction n; auto).
  destruct e as [ok reach|j ok|j| |x name args|x| |q|ok reach]; cbn [step_event] in S.
  - left. unfold do_main in S. destruct (todo s) as [|[j|name args|] q] eqn:T; [discriminate| | |].
    + injection S as <- <-. now apply SAME.
    + destruct (acting s).
      { apply command_frame in S as [F _]. destruct (f_queue _ _ F) as [n Q]. apply (APP (repeat Clear n)); [exact (f_running _ _ F)|exact Q|apply CL]. }
      destruct (_ || _); [discriminate|]. injection S as <- <-. now apply SAME.
    + destruct (acting s).
      { destruct (step _ _); [|discriminate]. injection S as <- <-. now apply SAME. }
      destruct (_ || _); [discriminate|]. injection S as <- <-. now apply SAME.
  - left. unfold do_connect in S. destruct (adding s); [discriminate|].
    destruct (nth_error (servers s) j) as [v|] eqn:V; [|discriminate].
    destruct (listening v); [|discriminate].
    destruct (offers v) as [|ty|cf] eqn:O; cbn [open set_servers set_next] in S;
    repeat match type of S with context [if ?x then _ else _] => destruct x; try discriminate end; injection S as <- <-;
    try (now apply SAME).
    now apply (APP [Attach (next s) j cf]).
  - left. destruct (adding s); [discriminate|]. destruct (nth_error (servers s) j); [|discriminate].
    destruct (listening s0); [|discriminate]. injection S as <- <-. now apply SAME.
  - left. unfold do_added, add_link in S. destruct (adding s) as [[[j x] ty]|]; [|discriminate].
    destruct (step _ _); [|discriminate]. injection S as <- <-. now apply SAME.
  - left. unfold do_request in S. destruct (adding s); [discriminate|]. destruct (mem x (watched s)); [|discriminate].
    injection S as <- <-. now apply (APP [Command x name args]).
  - left. unfold do_leave in S. destruct (adding s); [discriminate|]. destruct (mem x (watched s)); [|discriminate].
    injection S as <- <-. now apply SAME.
  - left. unfold do_begin in S. destruct (running s) eqn:R; [discriminate|]. destruct (queue s) as [|t q] eqn:Q; [discriminate|].
    destruct (conflict C t s); [discriminate|]. injection S as <- <-. exact K.
  - unfold do_tick in S. destruct (running s) eqn:R; [discriminate|]. destruct (ticking (clock s)); [discriminate|].
    destruct (forallb _ q); [|discriminate]. destruct (conflict C _ s); [discriminate|]. injection S as <- <-. cbn in K.
    apply in_app_iff in K as [K|K]; [right; eauto|left; exact K].
  - left. unfold do_finish in S. destruct (running s) as [t|] eqn:R; [|discriminate].
    destruct t as [x j cf|x name args|e| |q].
    + destruct (step _ _); [|discriminate]. injection S as <- <-. exact K.
    + destruct (ends name).
      { cbn [ended set_tasks] in S. destruct (ended s); [discriminate|]. injection S as <- <-. exact K. }
      apply command_frame in S as [F _]. destruct (f_queue _ _ F) as [n Q]. rewrite (f_running _ _ F), Q in K.
      cbn [running set_tasks queue app] in K. rewrite flat_map_app, CL, app_nil_r in K. exact K.
    + cbn [sim set_tasks queue] in S. destruct (mem e _).
      { unfold remove in S. destruct (step _ _); [|discriminate]. injection S as <- <-. cbn in K. right. eapply closing_filter, K. }
      injection S as <- <-. right. exact K.
    + destruct (step _ _); [|discriminate]. injection S as <- <-. exact K.
    + injection S as <- <-. cbn in K. rewrite flat_map_app in K. cbn. apply in_app_iff. apply in_app_iff in K as [K|K]; [now right|left].
      apply in_flat_map in K as (y & Y & D). apply in_map_iff in Y as (z & <- & Z). destruct D as [<-|[]]. exact Z.
Qed.
Lemma closed_noticed l s o d : hist l s o -> In d (to_close s) -> exists q, In (BeginTick q) l /\ In d q.
Proof.
  revert l s o. apply (hist_ind (fun l s _ => In d (to_close s) -> exists q, In (BeginTick q) l /\ In d q)).
  - intros [].
  - intros l s o e s' o' _ IH S K. destruct (step_closing _ _ _ _ _ S K) as [G|(q & -> & G)].
    + destruct (IH G) as (q & Q1 & Q2). exists q. split; [apply in_app_iff; now left|exact Q2].
    + exists q. split; [apply in_app_iff; right; now left|exact G].
Qed.
Lemma closed_because l s o d : hist l s o -> running s = Some (Closed d) -> exists q, In (BeginTick q) l /\ In d q.
Proof. intros H R. apply (closed_noticed _ _ _ _ H). unfold to_close, tasks. rewrite R. now left. Qed.

(** ** Listening *)

Definition heard (s : state) : Prop := forall i v, nth_error (servers s) i = Some v ->
  (bound v = false -> listening v = false) /\
  (bound v = true -> listening v = true \/ In (Listen i) (todo s) \/ exists c ty, adding s = Some (i, c, ty)).
Lemma heard_same (s s' : state) : heard s -> servers s' = servers s -> todo s' = todo s -> adding s' = adding s -> heard s'.
Proof. intros H E1 E2 E3 i v V. rewrite E1 in V. rewrite E2, E3. now apply H. Qed.
Lemma heard_todo (s s' : state) a : heard s -> servers s' = servers s -> todo s = a :: todo s' -> (forall i, a <> Listen i) -> adding s' = adding s -> heard s'.
Proof.
  intros H E1 E2 NL E3 i v V. rewrite E1 in V. rewrite E3. destruct (H i v V) as [H1 H2]. split; [exact H1|].
  intros B. destruct (H2 B) as [K|[K|K]]; auto. rewrite E2 in K. destruct K as [K|K]; [now elim (NL i)|auto].
Qed.
Lemma step_heard (s s' : state) e o : heard s -> step_event s e = Next s' o -> heard s'.
Proof.
  intros H S.
  destruct e as [ok reach|j ok|j| |x name args|x| |q|ok reach]; cbn [step_event] in S.
  - unfold do_main in S. destruct (todo s) as [|[j|name args|] q] eqn:T; [discriminate| | |].
    + injection S as <- <-. intros i v V. cbn in V. rewrite nth_at_server in V. cbn [todo adding set_servers set_main].
      destruct (Nat.eqb_spec j i) as [->|NE].
      * destruct (nth_error (servers s) i) as [w|] eqn:W; [|discriminate]. injection V as <-. cbn. destruct (H i w W) as [H1 _].
        destruct (bound w) eqn:B; [split; [discriminate|auto]|]. split; [auto|discriminate].
      * destruct (H i v V) as [H1 H2]. split; [exact H1|]. intros B. destruct (H2 B) as [K|[K|K]]; auto.
        rewrite T in K. destruct K as [K|K]; [congruence|auto].
    + destruct (acting s).
      * apply command_frame in S as [F _]. apply (heard_todo s _ (Call name args)); [exact H|exact (f_servers _ _ F)| |discriminate|exact (f_adding _ _ F)].
        rewrite T, (f_todo _ _ F). reflexivity.
      * destruct (_ || _); [discriminate|]. injection S as <- <-. apply (heard_same s); auto.
    + destruct (acting s).
      * destruct (step _ _); [|discriminate]. injection S as <- <-. apply (heard_todo s _ Sniff); auto. discriminate.
      * destruct (_ || _); [discriminate|]. injection S as <- <-. apply (heard_same s); auto.
  - unfold do_connect in S. destruct (adding s) eqn:A; [discriminate|].
    destruct (nth_error (servers s) j) as [v|] eqn:V; [|discriminate].
    destruct (listening v) eqn:LI; [|discriminate].
    assert (TWICE : forall t : state, servers t = at_server C (listen C true) j (at_server C (listen C false) j (servers s)) ->
      todo t = todo s -> adding t = adding s -> heard t).
    { intros t E1 E2 E3 i w W. rewrite E1, !nth_at_server in W. rewrite E2, E3. destruct (Nat.eqb_spec j i) as [->|NE]; [|now apply H].
      rewrite V in W. injection W as <-. cbn. destruct (H i v V) as [H1 _]. destruct (bound v); [|split; [auto|discriminate]].
      split; [discriminate|auto]. }
    destruct (offers v) as [|ty|cf] eqn:O; cbn [open set_servers set_next] in S.
    + destruct (open s); [destruct ok; [|discriminate]|destruct (_ || _); [discriminate|]; destruct ok; [|discriminate]];
      injection S as <- <-; (apply TWICE; [reflexivity|reflexivity|cbn; congruence]).
    + destruct (_ || _); [discriminate|]. injection S as <- <-. intros i w W. cbn in W. rewrite nth_at_server in W. cbn [todo adding set_adding set_next set_servers].
      destruct (Nat.eqb_spec j i) as [->|NE].
      * rewrite V in W. injection W as <-. cbn. destruct (H i v V) as [H1 _]. destruct (bound v); [split; [discriminate|]|split; [auto|discriminate]].
        intros _. right. right. eauto.
      * destruct (H i w W) as [H1 H2]. split; [exact H1|]. intros B. destruct (H2 B) as [K|[K|(c & t & K)]]; auto. congruence.
    + injection S as <- <-. apply TWICE; [reflexivity|reflexivity|cbn; congruence].
  - destruct (adding s); [discriminate|]. destruct (nth_error (servers s) j); [|discriminate].
    destruct (listening s0); [|discriminate]. injection S as <- <-. exact H.
  - unfold do_added, add_link in S. destruct (adding s) as [[[j x] ty]|] eqn:A; [|discriminate].
    destruct (step _ _); [|discriminate]. injection S as <- <-. intros i v V. cbn in V. rewrite nth_at_server in V. cbn.
    destruct (Nat.eqb_spec j i) as [->|NE].
    + destruct (nth_error (servers s) i) as [w|] eqn:W; [|discriminate]. injection V as <-. cbn. destruct (H i w W) as [H1 _].
      destruct (bound w) eqn:B; [split; [discriminate|auto]|]. split; [auto|discriminate].
    + destruct (H i v V) as [H1 H2]. split; [exact H1|]. intros B. destruct (H2 B) as [K|[K|(c & t & K)]]; auto. congruence.
  - unfold do_request in S. destruct (adding s) eqn:A; [discriminate|]. destruct (mem x (watched s)); [|discriminate].
    injection S as <- <-. apply (heard_same s); auto.
  - unfold do_leave in S. destruct (adding s) eqn:A; [discriminate|]. destruct (mem x (watched s)); [|discriminate].
    injection S as <- <-. apply (heard_same s); auto.
  - unfold do_begin in S. destruct (running s) eqn:R; [discriminate|]. destruct (queue s) as [|t q] eqn:Q; [discriminate|].
    destruct (conflict C t s); [discriminate|]. injection S as <- <-. apply (heard_same s); auto.
  - unfold do_tick in S. destruct (running s) eqn:R; [discriminate|]. destruct (ticking (clock s)); [discriminate|].
    destruct (forallb _ q); [|discriminate]. destruct (conflict C _ s); [discriminate|]. injection S as <- <-. apply (heard_same s); auto.
  - unfold do_finish in S. destruct (running s) as [t|] eqn:R; [|discriminate].
    destruct t as [x j cf|x name args|e| |q].
    + destruct (step _ _); [|discriminate]. injection S as <- <-. apply (heard_same s); auto.
    + destruct (ends name).
      { cbn [ended set_tasks] in S. destruct (ended s); [discriminate|]. injection S as <- <-. apply (heard_same s); auto. }
      apply command_frame in S as [F _]. apply (heard_same s); [exact H|exact (f_servers _ _ F)|exact (f_todo _ _ F)|exact (f_adding _ _ F)].
    + cbn [sim set_tasks queue] in S. destruct (mem e _).
      { unfold remove in S. destruct (step _ _); [|discriminate]. injection S as <- <-. apply (heard_same s); auto. }
      injection S as <- <-. apply (heard_same s); auto.
    + destruct (step _ _); [|discriminate]. injection S as <- <-. apply (heard_same s); auto.
    + injection S as <- <-. apply (heard_same s); auto.
Qed.
Lemma open_all_nth : forall (l : list (service C)) k i v, nth_error (open_all C binds k l) i = Some v ->
  listening v = false /\ bound v = binds (k + i)%nat /\ (i < List.length l)%nat.
Proof.
  induction l as [|x l IH]; intros k [|i] v H; cbn in H; try discriminate.
  - injection H as <-. cbn. rewrite Nat.add_0_r. repeat split; lia.
  - apply IH in H as (H1 & H2 & H3). split; [exact H1|]. split; [now rewrite <- Nat.add_succ_comm|]. cbn. lia.
Qed.
Lemma listens_in n sn i : (i < n)%nat -> In (Listen i) (actions n sn).
Proof.
  intros H. unfold actions. destruct i; [now left|]. right. apply in_app_iff. right. apply in_app_iff. left.
  apply in_map, in_seq. lia.
Qed.
Lemma heard_history l s o : hist l s o -> heard s.
Proof.
  revert l s o. apply (hist_ind (fun _ s _ => heard s)).
  - intros i v V. unfold start in *. cbn [servers todo adding] in *. apply open_all_nth in V as (V1 & V2 & V3). split; [auto|].
    intros _. right. left. apply listens_in. now rewrite length_open.
  - intros l s o e s' o' _ H S. eapply step_heard; eauto.
Qed.
Lemma bound_same l s o i v : hist l s o -> nth_error (servers s) i = Some v -> bound v = binds i.
Proof.
  intros H. revert i v. revert l s o H. apply (hist_ind (fun _ s _ => forall i v, nth_error (servers s) i = Some v -> bound v = binds i)).
  - intros i v V. unfold start in V. cbn [servers] in V. now apply open_all_nth in V as (_ & V & _).
  - intros l s o e s' o' _ IH S i v V.
    assert (AT : forall b j (q : list (server C)), (forall i v, nth_error q i = Some v -> bound v = binds i) ->
      forall i v, nth_error (at_server C (listen C b) j q) i = Some v -> bound v = binds i).
    { intros b j q Q i0 v0 V0. rewrite nth_at_server in V0. destruct (Nat.eqb j i0); [|eauto].
      destruct (nth_error q i0) as [w|] eqn:W; [|discriminate]. injection V0 as <-. cbn. eauto. }
    assert (SAME : servers s' = servers s -> bound v = binds i) by (intros E; rewrite E in V; eauto).
    destruct e as [ok reach|j ok|j| |x name args|x| |q|ok reach]; cbn [step_event] in S.
    + unfold do_main in S. destruct (todo s) as [|[j|name args|] q] eqn:T; [discriminate| | |].
      * injection S as <- <-. eapply AT; [exact IH|exact V].
      * destruct (acting s); [apply command_frame in S as [F _]; exact (SAME (f_servers _ _ F))|].
        destruct (_ || _); [discriminate|]. injection S as <- <-. now apply SAME.
      * destruct (acting s).
        { destruct (step _ _); [|discriminate]. injection S as <- <-. now apply SAME. }
        destruct (_ || _); [discriminate|]. injection S as <- <-. now apply SAME.
    + unfold do_connect in S. destruct (adding s) eqn:A; [discriminate|].
      destruct (nth_error (servers s) j) as [w|] eqn:W; [|discriminate].
      destruct (listening w) eqn:LI; [|discriminate].
      destruct (offers w) as [|ty|cf] eqn:O; cbn [open set_servers set_next] in S;
      repeat match type of S with context [if ?x then _ else _] => destruct x; try discriminate end; injection S as <- <-;
      cbn in V; (eapply AT; [|exact V]); try (eapply AT; exact IH); exact IH.
    + destruct (adding s); [discriminate|]. destruct (nth_error (servers s) j); [|discriminate].
      destruct (listening s0); [|discriminate]. injection S as <- <-. now apply SAME.
    + unfold do_added, add_link in S. destruct (adding s) as [[[j x] ty]|] eqn:A; [|discriminate].
      destruct (step _ _); [|discriminate]. injection S as <- <-. eapply AT; [exact IH|exact V].
    + unfold do_request in S. destruct (adding s) eqn:A; [discriminate|]. destruct (mem x (watched s)); [|discriminate].
      injection S as <- <-. now apply SAME.
    + unfold do_leave in S. destruct (adding s) eqn:A; [discriminate|]. destruct (mem x (watched s)); [|discriminate].
      injection S as <- <-. now apply SAME.
    + unfold do_begin in S. destruct (running s) eqn:R; [discriminate|]. destruct (queue s) as [|t q] eqn:Q; [discriminate|].
      destruct (conflict C t s); [discriminate|]. injection S as <- <-. now apply SAME.
    + unfold do_tick in S. destruct (running s) eqn:R; [discriminate|]. destruct (ticking (clock s)); [discriminate|].
      destruct (forallb _ q); [|discriminate]. destruct (conflict C _ s); [discriminate|]. injection S as <- <-. now apply SAME.
    + unfold do_finish in S. destruct (running s) as [t|] eqn:R; [|discriminate].
      destruct t as [x j cf|x name args|e| |q].
      * destruct (step _ _); [|discriminate]. injection S as <- <-. now apply SAME.
      * destruct (ends name).
        { cbn [ended set_tasks] in S. destruct (ended s); [discriminate|]. injection S as <- <-. now apply SAME. }
        apply command_frame in S as [F _]. exact (SAME (f_servers _ _ F)).
      * cbn [sim set_tasks queue] in S. destruct (mem e _).
        { unfold remove in S. destruct (step _ _); [|discriminate]. injection S as <- <-. now apply SAME. }
        injection S as <- <-. now apply SAME.
      * destruct (step _ _); [|discriminate]. injection S as <- <-. now apply SAME.
      * injection S as <- <-. now apply SAME.
Qed.
Lemma always_listens l s o i v : hist l s o -> nth_error (servers s) i = Some v -> binds i = true -> todo s = [] ->
  listening v = true \/ exists c ty, adding s = Some (i, c, ty).
Proof.
  intros H V B T. destruct (heard_history _ _ _ H i v V) as [_ K]. rewrite (bound_same _ _ _ _ _ H V) in K.
  destruct (K B) as [X|[X|X]]; auto. rewrite T in X. destruct X.
Qed.
Lemma busy_port l s o i ok : hist l s o -> binds i = false -> step_event s (Connect i ok) = Blocked.
Proof.
  intros H B. cbn. unfold do_connect. destruct (adding s); [reflexivity|]. destruct (nth_error (servers s) i) as [v|] eqn:V; [|reflexivity].
  destruct (heard_history _ _ _ H i v V) as [K _]. rewrite (bound_same _ _ _ _ _ H V) in K. now rewrite (K B).
Qed.
End Clients.
