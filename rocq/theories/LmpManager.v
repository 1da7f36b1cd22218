(** The histories of the Link Manager: links, commands and packets are kept. *)
From Verif Require Import Prelude Ec Lmp LmpSpec EcProofs LmpProofs LmpFits.
From Coq Require Import Permutation.
Open Scope N_scope.

(** * The peers of the slots *)

Definition peers (l : list slot) : list address := map (fun s => peer (s_link s)) l.

Fixpoint swap (b c : address) (l : list address) : list address :=
  match l with
  | [] => []
  | x :: l => if x =? b then c :: l else x :: swap b c l
  end.

Definition filled (x : address) : bool := negb (x =? EMPTY).

Lemma swap_same b l : swap b b l = l.
Proof.
  induction l as [|x l IH]; [reflexivity|]. cbn [swap]. destruct (x =? b) eqn:E.
  - apply N.eqb_eq in E as ->. reflexivity.
  - f_equal. exact IH.
Qed.

Lemma at_peer_peers b c f : (forall s, peer (s_link s) = b -> peer (s_link (f s)) = c) ->
  forall l, peers (at_peer b f l) = swap b c (peers l).
Proof.
  intros F. induction l as [|s l IH]; [reflexivity|]. cbn [peers map swap at_peer].
  destruct (peer (s_link s) =? b) eqn:E; cbn [map].
  - f_equal. apply F. apply N.eqb_eq. exact E.
  - f_equal. exact IH.
Qed.

Lemma find_peer_in b l : find_peer b l = None <-> ~ In b (peers l).
Proof.
  rewrite find_peer_none. unfold peers. rewrite Forall_forall. split.
  - intros H I. apply in_map_iff in I as (s & E & S). exact (H s S E).
  - intros H s S E. apply H. apply in_map_iff. eauto.
Qed.

Lemma find_peer_some b l s : find_peer b l = Some s -> In s l /\ peer (s_link s) = b.
Proof.
  induction l as [|x l IH]; cbn [find_peer]; [discriminate|]. destruct (peer (s_link x) =? b) eqn:E.
  - intros H. injection H as ->. split; [left; reflexivity|]. apply N.eqb_eq. exact E.
  - intros H. destruct (IH H). split; [right|]; assumption.
Qed.

Lemma swap_add a l : a <> EMPTY -> In EMPTY l ->
  Permutation (filter filled (swap EMPTY a l)) (a :: filter filled l).
Proof.
  intros A. assert (FA : filled a = true) by (unfold filled; rewrite (proj2 (N.eqb_neq a EMPTY) A); reflexivity).
  induction l as [|x l IH]; intros I; [contradiction|]. cbn [swap]. destruct (x =? EMPTY) eqn:E.
  - cbn [filter]. rewrite FA. replace (filled x) with false by (unfold filled; rewrite E; reflexivity). reflexivity.
  - destruct I as [->|I]; [discriminate|]. cbn [filter].
    replace (filled x) with true by (unfold filled; rewrite E; reflexivity).
    rewrite (IH I). apply perm_swap.
Qed.

Lemma swap_remove b l : b <> EMPTY -> In b l ->
  Permutation (b :: filter filled (swap b EMPTY l)) (filter filled l).
Proof.
  intros B. assert (FB : filled b = true) by (unfold filled; rewrite (proj2 (N.eqb_neq b EMPTY) B); reflexivity).
  induction l as [|x l IH]; intros I; [contradiction|]. cbn [swap]. destruct (x =? b) eqn:E.
  - apply N.eqb_eq in E as ->. cbn [filter]. rewrite FB. reflexivity.
  - destruct I as [->|I]; [rewrite N.eqb_refl in E; discriminate|]. cbn [filter]. destruct (filled x); [|auto].
    rewrite perm_swap. apply perm_skip. auto.
Qed.

Lemma filled_in b l : b <> EMPTY -> (In b (filter filled l) <-> In b l).
Proof.
  intros B. rewrite filter_In. unfold filled. rewrite (proj2 (N.eqb_neq b EMPTY) B). cbn. intuition auto.
Qed.

(** * What poll takes *)

Fixpoint takes (l : list action) : list command :=
  match l with [] => [] | Took c :: l => c :: takes l | _ :: l => takes l end.
Fixpoint hears (l : list action) : list packet :=
  match l with [] => [] | Heard p :: l => p :: hears l | _ :: l => hears l end.
Fixpoint says (l : list action) : list kind :=
  match l with
  | [] => []
  | Said (Complete k _ _) :: l | Said (Status k _) :: l => k :: says l
  | _ :: l => says l
  end.

Lemma takes_app l1 l2 : takes (l1 ++ l2) = takes l1 ++ takes l2.
Proof. induction l1 as [|[] l1 IH]; cbn; auto. f_equal. exact IH. Qed.
Lemma hears_app l1 l2 : hears (l1 ++ l2) = hears l1 ++ hears l2.
Proof. induction l1 as [|[] l1 IH]; cbn; auto. f_equal. exact IH. Qed.
Lemma says_app l1 l2 : says (l1 ++ l2) = says l1 ++ says l2.
Proof. induction l1 as [|[[]| | | | | |] l1 IH]; cbn; auto; f_equal; exact IH. Qed.

Definition held_command (l : link) : list command := match hci l with Some c => [c] | None => [] end.

(** The messages of a link before are those taken and those left. *)
Definition conserved (l : link) (o : list action) (k : link) : Prop :=
  held_command l = takes o ++ held_command k /\ queue l = hears o ++ queue k.

Section Random.
Variable rng : nat -> list N.

Lemma poll_conserves e p : forall l n, conserved l (done (poll rng e p l n)) (at_link (poll rng e p l n)).
Proof.
  unfold conserved, held_command.
  induction p; intros l n; cbn [poll]; try (cbn; auto; fail); cbn [log done at_link takes hears]; auto.
  - destruct (features e page); [cbn [log done at_link takes hears]; auto|cbn; auto].
  - destruct (hci l) as [c|] eqn:E; [|cbn; rewrite E; auto]. destruct (wanted c); [|cbn; rewrite E; auto].
    cbn [log done at_link takes hears]. destruct (H c (with_hci None l) n) as (A & B).
    cbn [hci queue with_hci] in A, B. symmetry in A. apply app_eq_nil in A as [A1 A2]. rewrite A1, A2, B. auto.
  - destruct (queue l) as [|x q] eqn:E; [cbn; rewrite E; auto|]. destruct (wanted x); [|cbn; rewrite E; auto].
    cbn [log done at_link takes hears]. destruct (H x (with_queue q l) n) as (A & B).
    cbn [hci queue with_queue] in A, B. split; [exact A|cbn [app]; rewrite <- B; reflexivity].
  - cbn zeta. destruct (queue l) as [|[] q] eqn:Q; try (cbn; rewrite Q; auto; fail); cbn [log done at_link takes hears].
    + destruct (opcode0 =? opcode).
      * destruct (H true (with_queue q l) n) as (A & B). cbn [hci queue with_queue] in A, B. split; [exact A|cbn [app]; rewrite <- B; reflexivity].
      * cbn [queue with_queue]. destruct q as [|[] q]; try (cbn; auto; fail). cbn [log done at_link takes hears].
        destruct (opcode1 =? opcode); [|cbn; auto].
        match goal with |- context [poll _ _ _ ?x n] => destruct (H false x n) as (A & B) end.
        cbn [hci queue with_queue] in A, B. split; [exact A|cbn [app]; rewrite <- B; reflexivity].
    + destruct (opcode0 =? opcode); [|cbn; auto].
      destruct (H false (with_queue q l) n) as (A & B). cbn [hci queue with_queue] in A, B. split; [exact A|cbn [app]; rewrite <- B; reflexivity].
  - destruct (hci l) as [[]|] eqn:E; try (cbn; rewrite E; auto; fail); cbn zeta; cbn [log done at_link takes hears]; auto;
      match goal with |- context [poll _ _ (k ?b) ?x n] => destruct (H b x n) as (A & B) end;
      cbn [hci queue with_hci] in A, B; symmetry in A; apply app_eq_nil in A as [A1 A2]; rewrite A1, A2, B; auto.
Qed.

Lemma spin_conserves e first : forall fuel p l n q k o n', spin rng fuel e first p l n = Ok (q, k, o, n') -> conserved l o k.
Proof.
  induction fuel as [|fuel IH]; intros p l n q k o n' E; cbn [spin] in E; cbn zeta in E;
    pose proof (poll_conserves e p l n) as PC;
    destruct (at_stop (poll rng e p l n)) as [q0| | |] eqn:Q; try discriminate.
  - injection E as <- <- <- <-. exact PC.
  - injection E as <- <- <- <-. exact PC.
  - destruct (spin rng fuel e first first (at_link (poll rng e p l n)) (draws (poll rng e p l n)))
      as [[[[q1 k1] o1] n1]| | |] eqn:G; try discriminate.
    cbn [bind] in E. injection E as <- <- <- <-. apply IH in G as (A & B). destruct PC as (C & D).
    split; [rewrite C, A, takes_app, app_assoc|rewrite D, B, hears_app, app_assoc]; reflexivity.
Qed.

(** ** Answers *)

Lemma answering_says a : forall l s t, drive (Answering a) s l = Some t ->
  (match s with Some c => [kind_of c] | None => [] end) ++ map kind_of (takes l) =
  says l ++ match t with Some c => [kind_of c] | None => [] end.
Proof.
  assert (KE : forall x y, kind_eqb x y = true -> x = y) by (intros [] []; cbn; congruence).
  induction l as [|x l IH]; intros s t D; cbn [drive] in D.
  - injection D as <-. cbn. rewrite app_nil_r. reflexivity.
  - destruct (next (Answering a) s x) as [u|] eqn:N; [|discriminate]. apply IH in D.
    destruct s as [c|]; cbn [Answering next] in N.
    + destruct x as [e| | | | | |]; try discriminate.
      destruct e; try discriminate.
      * destruct s; [|discriminate].
        assert (X : kind_eqb k (kind_of c) && (a0 =? a) = true /\ u = None).
        { destruct c; try discriminate; cbn [kind_of] in *; destruct (kind_eqb k _ && (a0 =? a)); try discriminate; split; congruence. }
        destruct X as (X & ->). apply andb_prop in X as [X _]. apply KE in X as ->. cbn [takes says map app] in *. congruence.
      * destruct s; [|discriminate].
        assert (X : kind_eqb k (kind_of c) = true /\ u = None).
        { destruct c; try discriminate; cbn [kind_of] in *; destruct (kind_eqb k _); try discriminate; split; congruence. }
        destruct X as (X & ->). apply KE in X as ->. cbn [takes says map app] in *. congruence.
    + destruct x as [e| |c| | | |]; try (injection N as <-; exact D).
      destruct e; try discriminate; injection N as <-; exact D.
Qed.

Lemma answered_map a b w o : answered a (map (Entry b w) o) = if b =? a then says o else [].
Proof.
  induction o as [|[[]| | | | | |] o IH]; [destruct (b =? a); reflexivity|..]; cbn [map answered says];
    revert IH; destruct (b =? a); intros IH; auto; f_equal; auto.
Qed.

Lemma heard_map a b w o : heard a (map (Entry b w) o) = if b =? a then hears o else [].
Proof.
  induction o as [|[] o IH]; [destruct (b =? a); reflexivity|..]; cbn [map heard hears]; revert IH; destruct (b =? a); intros IH; auto; f_equal; auto.
Qed.

Lemma answered_app a l1 l2 : answered a (l1 ++ l2) = answered a l1 ++ answered a l2.
Proof.
  induction l1 as [|[b w [[]| | | | | |]] l1 IH]; cbn [app answered]; auto; destruct (b =? a); auto; cbn; f_equal; exact IH.
Qed.

Lemma heard_app a l1 l2 : heard a (l1 ++ l2) = heard a l1 ++ heard a l2.
Proof.
  induction l1 as [|[b w []] l1 IH]; cbn [app heard]; auto; destruct (b =? a); auto; cbn; f_equal; exact IH.
Qed.

Lemma answered_none a l : Forall (fun x => on x <> a) l -> answered a l = [].
Proof.
  induction 1 as [|[b w x] l H _ IH]; [reflexivity|]. cbn [on] in H. apply N.eqb_neq in H.
  destruct x as [[]| | | | | |]; cbn [answered]; rewrite ?H; exact IH.
Qed.

Lemma heard_none a l : Forall (fun x => on x <> a) l -> heard a l = [].
Proof.
  induction 1 as [|[b w x] l H _ IH]; [reflexivity|]. cbn [on] in H. apply N.eqb_neq in H.
  destruct x; cbn [heard]; rewrite ?H; exact IH.
Qed.

(** ** Slots *)

(** The procedures of a link are those it starts with, each somewhere between two commands. *)
Definition busy (s : slot) : Prop :=
  proper (peer (s_link s)) (s_link s) /\
  exists ps, s_procs s = Some ps /\ names ps = runners /\
    forall w p, In (w, p) ps -> fits (peer (s_link s)) (Answering (peer (s_link s))) None p.

Definition good_slot (s : slot) : Prop :=
  if peer (s_link s) =? EMPTY then hci (s_link s) = None /\ queue (s_link s) = [] /\ s_procs s = None else busy s.

Lemma poll_all_answers e a : forall ps l n qs k o n', peer l = a -> proper a l ->
  (forall w p, In (w, p) ps -> w <> Manager /\ fits a (Answering a) None p) ->
  poll_all rng e ps l n = Ok (qs, k, o, n') ->
  proper a k /\ (forall w p, In (w, p) qs -> fits a (Answering a) None p) /\
  map kind_of (held_command l) = answered a o ++ map kind_of (held_command k) /\
  queue l = heard a o ++ queue k.
Proof.
  induction ps as [|[w p] ps IH]; intros l n qs k o n' PA PR F E; cbn [poll_all] in E.
  - injection E as <- <- <- <-. cbn. split; [exact PR|]. split; [intros w p []|]. auto.
  - destruct (spin rng (S (messages l)) e (start w (peer l)) p l n) as [[[[q k1] o1] n1]| | |] eqn:G; try discriminate.
    cbn [bind] in E.
    destruct (poll_all rng e ps k1 n1) as [[[[qs1 k2] o2] n2]| | |] eqn:P; try discriminate.
    cbn [bind] in E. injection E as <- <- <- <-.
    destruct (F w p (or_introl eq_refl)) as (W & FP). rewrite PA in *.
    destruct (spin_kept _ _ _ _ _ _ _ _ _ _ _ G) as (K1 & H1).
    assert (PR1 : proper a k1). { intros c C. apply PR. destruct H1; congruence. }
    destruct (IH k1 n1 qs1 k2 o2 n2) as (PK & FQ & A2 & B2); auto; [congruence|intros; apply F; right; assumption|].
    destruct (spin_fits rng a (Answering a) e (start w a) (fun s R => answering a w W s R) _ _ None _ _ _ _ _ _ PR FP G)
      as (t & D & T & Z).
    destruct t as [c|]; [discriminate|]. apply answering_says in D. cbn [app] in D. rewrite app_nil_r in D.
    destruct (spin_conserves _ _ _ _ _ _ _ _ _ _ G) as (C1 & C2).
    split; [exact PK|]. split; [intros v r [X|X]; [congruence|exact (FQ v r X)]|].
    rewrite answered_app, heard_app, answered_map, heard_map, N.eqb_refl.
    rewrite C1, C2, map_app, D, A2, B2, !app_assoc. auto.
Qed.

Lemma good_none l : Forall good_slot l -> clean l.
Proof.
  intros G. eapply Forall_impl; [|exact G]. intros s H E. unfold good_slot in H. rewrite E in H. exact H.
Qed.

Lemma names_runners ps w : names ps = runners -> forall p, In (w, p) ps -> w <> Manager.
Proof.
  intros N p I ->. assert (X : In Manager (names ps)) by (apply in_map_iff; exists (Manager, p); auto).
  rewrite N in X. cbn in X. intuition discriminate.
Qed.

Definition waiting (a : address) (l : list slot) : list kind :=
  match find_peer a l with Some s => map kind_of (held_command (s_link s)) | None => [] end.
Definition unheard (a : address) (l : list slot) : list packet :=
  match find_peer a l with Some s => queue (s_link s) | None => [] end.

Lemma tick_good e : forall l n l' o n', tick_slots rng e l n = Ok (l', o, n') ->
  Forall good_slot l -> NoDup (filter filled (peers l)) ->
  peers l' = peers l /\ Forall good_slot l' /\
  forall a, a <> EMPTY ->
    waiting a l = answered a o ++ waiting a l' /\ unheard a l = heard a o ++ unheard a l'.
Proof.
  induction l as [|s l IH]; intros n l' o n' E G ND; cbn [tick_slots] in E.
  - injection E as <- <- <-. auto.
  - match type of E with bind ?x _ = _ => destruct x as [[[s1 o1] n1]| | |] eqn:T1; try discriminate end. cbn [bind] in E.
    destruct (tick_slots rng e l n1) as [[[l2 o2] n2]| | |] eqn:T2; try discriminate. cbn [bind] in E.
    injection E as <- <- <-. apply Forall_cons_iff in G as [G1 G2].
    destruct (tick_slot_peer _ _ _ _ _ _ _ T1) as (K & O).
    assert (ND2 : NoDup (filter filled (peers l))).
    { cbn [peers map filter] in ND. destruct (filled (peer (s_link s))); [apply NoDup_cons_iff in ND; apply ND|exact ND]. }
    destruct (IH _ _ _ _ T2 G2 ND2) as (P2 & Q2 & R2).
    split; [cbn [peers map]; rewrite K; f_equal; exact P2|].
    apply tick_slot_inv in T1 as [(A & -> & -> & ->)|(ps & qs & k & A & -> & B)].
    + split; [constructor; assumption|]. intros a NA. destruct (R2 a NA) as (X & Y).
      unfold waiting, unheard in *. cbn [find_peer app]. destruct (peer (s_link s) =? a) eqn:E; [|auto].
      assert (F : find_peer a l = None /\ find_peer a l2 = None).
      { rewrite !find_peer_in, P2.
        assert (NI : ~ In a (peers l)); [|auto]. intros I. apply N.eqb_eq in E.
        cbn [peers map filter] in ND. rewrite E in ND. unfold filled in ND at 1.
        rewrite (proj2 (N.eqb_neq a EMPTY) NA) in ND. cbn [negb] in ND. apply NoDup_cons_iff in ND as [ND _].
        apply ND. apply filled_in; auto. }
      destruct F as (F1 & F2). rewrite F1, F2 in *. rewrite app_nil_r in X, Y. rewrite <- X, <- Y. auto.
    + assert (NE : peer (s_link s) =? EMPTY = false).
      { unfold good_slot in G1. destruct (peer (s_link s) =? EMPTY); [|reflexivity].
        destruct G1 as (_ & _ & G1). congruence. }
      unfold good_slot in G1. rewrite NE in G1. destruct G1 as (PR & ps2 & X & N & F). rewrite A in X. injection X as <-.
      destruct (poll_all_answers e _ _ _ _ _ _ _ _ eq_refl PR
        (fun w p I => conj (names_runners ps w N p I) (F w p I)) B) as (PK & FQ & X1 & X2).
      destruct (poll_all_other rng e _ _ _ _ _ _ _ B) as (K3 & _ & N3 & F3).
      split.
      { constructor; [|exact Q2]. unfold good_slot. cbn [s_link]. rewrite K3, NE. split; [cbn [s_link]; rewrite K3; exact PK|].
        exists qs. cbn [s_link s_procs]. split; [reflexivity|]. split; [congruence|]. rewrite K3. exact FQ. }
      intros a NA. destruct (R2 a NA) as (X & Y). rewrite answered_app, heard_app.
      unfold waiting, unheard in *. cbn [find_peer s_link] in *. rewrite K3. destruct (peer (s_link s) =? a) eqn:E.
      * apply N.eqb_eq in E. rewrite E in *. cbn [s_link].
        assert (F0 : find_peer a l = None).
        { rewrite find_peer_in. intros I.
          cbn [peers map filter] in ND. rewrite E in ND. unfold filled in ND at 1.
          rewrite NE in ND. cbn [negb] in ND. apply NoDup_cons_iff in ND as [ND _].
          apply ND. apply filled_in; auto. }
        assert (AP : Forall (fun x => on x <> a) o2).
        { eapply tick_apart; [exact T2|]. apply find_peer_none. exact F0. }
        rewrite (answered_none a o2 AP), (heard_none a o2 AP), !app_nil_r. auto.
      * apply N.eqb_neq in E.
        assert (AP : Forall (fun x => on x <> a) o1).
        { eapply Forall_impl; [|exact F3]. cbn. intros x [-> _]. exact E. }
        rewrite (answered_none a o1 AP), (heard_none a o1 AP). auto.
Qed.

(** ** Calls *)

Definition sound (known : list address) (l : list slot) : Prop :=
  Forall good_slot l /\ NoDup (filter filled (peers l)) /\ (forall b, b <> EMPTY -> (In b (peers l) <-> In b known)).

Lemma find_other b c f : (forall s, peer (s_link s) = c -> peer (s_link (f s)) <> b) -> b <> c ->
  forall l, find_peer b (at_peer c f l) = find_peer b l.
Proof.
  intros F D. induction l as [|s l IH]; [reflexivity|]. cbn [at_peer]. destruct (peer (s_link s) =? c) eqn:E; cbn [find_peer].
  - apply N.eqb_eq in E. rewrite (proj2 (N.eqb_neq _ _) (F s E)), E, (proj2 (N.eqb_neq c b)) by congruence. reflexivity.
  - rewrite IH. reflexivity.
Qed.

Lemma find_same b f : (forall s, peer (s_link s) = b -> peer (s_link (f s)) = b) ->
  forall l, find_peer b (at_peer b f l) = option_map f (find_peer b l).
Proof.
  intros F. induction l as [|s l IH]; [reflexivity|]. cbn [at_peer]. destruct (peer (s_link s) =? b) eqn:E; cbn [find_peer]; rewrite E.
  - apply N.eqb_eq in E. rewrite (F s E), N.eqb_refl. reflexivity.
  - exact IH.
Qed.

Lemma find_moved b c f : (forall s, peer (s_link s) = c -> peer (s_link (f s)) = b) -> b <> c ->
  forall l, ~ In b (peers l) -> find_peer b (at_peer c f l) = option_map f (find_peer c l).
Proof.
  intros F D. induction l as [|s l IH]; intros N; [reflexivity|]. cbn [at_peer find_peer]. cbn [peers map] in N.
  destruct (peer (s_link s) =? c) eqn:E; cbn [find_peer].
  - apply N.eqb_eq in E. rewrite (F s E), N.eqb_refl. reflexivity.
  - rewrite (proj2 (N.eqb_neq _ _)) by (intros X; apply N; left; exact X). apply IH. intros X. apply N. right. exact X.
Qed.

Lemma forall_at_peer (P : slot -> Prop) b f l : Forall P l -> (forall s, P s -> peer (s_link s) = b -> P (f s)) ->
  Forall P (at_peer b f l).
Proof.
  intros F G. induction F as [|s l X F IH]; cbn [at_peer]; [constructor|].
  destruct (peer (s_link s) =? b) eqn:E; constructor; auto. apply G; auto. apply N.eqb_eq. exact E.
Qed.

(** A message stored for a link. *)
Lemma stored known b f l : b <> EMPTY ->
  (forall s, peer (s_link (f s)) = peer (s_link s) /\ s_procs (f s) = s_procs s) ->
  (forall s, peer (s_link s) = b -> proper b (s_link s) -> proper b (s_link (f s))) ->
  sound known l -> sound known (at_peer b f l).
Proof.
  intros B F P (G & ND & K).
  assert (PE : peers (at_peer b f l) = peers l).
  { rewrite (at_peer_peers b b); [apply swap_same|]. intros s E. destruct (F s). congruence. }
  split; [|rewrite PE; auto]. apply forall_at_peer; [exact G|]. intros s X E. unfold good_slot in *.
  destruct (F s) as (F1 & F2). rewrite F1, E in *. rewrite (proj2 (N.eqb_neq b EMPTY) B) in *. unfold busy in *.
  rewrite F1, F2, E in *. destruct X as (X1 & X2). split; [apply P; assumption|exact X2].
Qed.

Lemma step_sound known e o m m' l : sound known (slots m) -> orderly known [(e, o)] -> step rng e m o = Ok (m', l) ->
  sound (linked [(e, o)] known) (slots m') /\
  (o <> Reset -> forall a, a <> EMPTY ->
     waiting a (slots m) ++ given a [(e, o)] = answered a l ++ waiting a (slots m')) /\
  (forall a, a <> EMPTY -> In a (peers (slots m)) -> o <> AddLink a -> o <> RemoveLink a -> o <> Reset ->
     unheard a (slots m) ++ received a [(e, o)] = heard a l ++ unheard a (slots m')).
Proof.
  intros S OR E. pose proof S as (G & ND & K). destruct OR as (OR & _). destruct o; cbn [step] in E.
  - (* a command *)
    assert (KK : forall b, bind (answer b (refusal c INVALID_PARAMETERS)) (fun o => Ok (m, o)) = Ok (m', l) ->
      m' = m /\ exists w, l = [Entry b Manager (Said w)] /\
        ((exists x y, w = Complete (kind_of c) x y) \/ (exists x, w = Status (kind_of c) x))).
    { intros b X. destruct (answer b (refusal c INVALID_PARAMETERS)) as [l0| | |] eqn:Y; try discriminate.
      cbn [bind] in X. injection X as <- <-. apply answer_log in Y as (v & R & ->).
      destruct c; cbn in R; try discriminate R; injection R as <-; (split; [reflexivity|]; eexists; split; [reflexivity|]);
        first [left; eexists; eexists; reflexivity | right; eexists; reflexivity]. }
    cbn [given linked]. destruct (target e c) as [b|] eqn:TG.
    + destruct (find_peer b (slots m)) as [s|] eqn:FP.
      * destruct (hci (s_link s)) eqn:H; [discriminate|]. injection E as <- <-. cbn [slots].
        assert (B : b <> EMPTY) by congruence.
        split; [apply stored; auto|].
        { intros x X _ c0 C0. cbn in C0. injection C0 as <-. exact (target_addressed _ _ _ TG). }
        split.
        { intros _ a A. cbn [answered app]. unfold waiting. destruct (b =? a) eqn:BA.
          - apply N.eqb_eq in BA as ->. rewrite find_same by auto. rewrite FP. cbn [option_map]. unfold held_command.
            rewrite H. reflexivity.
          - apply N.eqb_neq in BA. rewrite find_other by (cbn; congruence). apply app_nil_r. }
        { intros a A _ _ _ _. cbn [received heard app]. rewrite app_nil_r. unfold unheard. destruct (N.eq_dec b a) as [->|D].
          - rewrite find_same by auto. rewrite FP. reflexivity.
          - rewrite find_other by (cbn; congruence). reflexivity. }
      * destruct (KK _ E) as (-> & w & -> & W). split; [exact S|].
        split.
        { intros _ a A. unfold waiting. destruct (b =? a) eqn:BA.
          - pose proof BA as BB. apply N.eqb_eq in BA as ->. rewrite FP.
            destruct W as [(x & y & ->)|(x & ->)]; cbn [answered app]; rewrite BB; reflexivity.
          - rewrite app_nil_r. destruct W as [(x & y & ->)|(x & ->)]; cbn [answered app]; rewrite BA; reflexivity. }
        { intros a A _ _ _ _. cbn [received heard app]. apply app_nil_r. }
    + destruct (KK _ E) as (-> & w & -> & W). split; [exact S|]. split.
      { intros _ a A. rewrite app_nil_r. pose proof (proj2 (N.eqb_neq EMPTY a) (fun x => A (eq_sym x))) as BA.
        destruct W as [(x & y & ->)|(x & ->)]; cbn [answered app]; rewrite BA; reflexivity. }
      { intros a A _ _ _ _. cbn [received]. rewrite app_nil_r.
        reflexivity. }
  - (* a packet *)
    injection E as <- <-. cbn [slots given linked answered heard app]. split; [apply stored; auto|]. split.
    + intros _ a A. rewrite app_nil_r. unfold waiting. destruct (N.eq_dec from a) as [->|D].
      * rewrite find_same by auto. destruct (find_peer a (slots m)); reflexivity.
      * rewrite find_other by (cbn; congruence). reflexivity.
    + intros a A I _ _ _. unfold unheard. cbn [received]. destruct (from =? a) eqn:D.
      * apply N.eqb_eq in D as ->. rewrite find_same by auto. destruct (find_peer a (slots m)) as [s|] eqn:FP; [reflexivity|].
        apply find_peer_in in FP. contradiction.
      * apply N.eqb_neq in D. rewrite find_other by (cbn; congruence). apply app_nil_r.
  - (* a new link *)
    destruct OR as (A0 & NI). destruct (find_peer EMPTY (slots m)) as [s|] eqn:FP; [|discriminate]. injection E as <- <-.
    cbn [slots given linked answered heard app].
    assert (IE : In EMPTY (peers (slots m))).
    { destruct (in_dec N.eq_dec EMPTY (peers (slots m))) as [I|I]; [exact I|]. apply find_peer_in in I. congruence. }
    assert (NP : ~ In a (peers (slots m))) by (intros I; apply NI; apply K; assumption).
    destruct (find_peer_some _ _ _ FP) as (IS & PS).
    assert (GS := proj1 (Forall_forall _ _) G s IS). unfold good_slot in GS. rewrite PS in GS. cbn in GS. destruct GS as (GS1 & GS2 & _).
    split; [split; [|split]|split].
    + apply forall_at_peer; [exact G|]. intros x X E. unfold good_slot in *. cbn [s_link peer].
      rewrite (proj2 (N.eqb_neq a EMPTY) A0). rewrite E in X. cbn in X. destruct X as (X1 & _). split.
      * intros c C. cbn in C. congruence.
      * exists (starts a). split; [reflexivity|]. split; [reflexivity|]. intros w p I. cbn [s_link peer].
        unfold starts in I. apply in_map_iff in I as (v & V & W). injection V as <- <-. apply answering; [|reflexivity].
        intros ->. cbn in W. intuition discriminate.
    + rewrite (at_peer_peers EMPTY a) by reflexivity. eapply Permutation_NoDup; [symmetry; apply swap_add; assumption|].
      apply NoDup_cons; [|exact ND]. rewrite filled_in by assumption. exact NP.
    + intros b B. rewrite (at_peer_peers EMPTY a) by reflexivity. rewrite <- (filled_in b _ B).
      rewrite (Permutation_in' (eq_refl b) (swap_add a _ A0 IE)). cbn [In]. rewrite (filled_in b _ B), (K b B). reflexivity.
    + intros _ b B. rewrite app_nil_r. unfold waiting. destruct (N.eq_dec b a) as [->|D].
      * rewrite find_moved by auto. rewrite FP. cbn. unfold held_command. cbn. rewrite GS1. cbn.
        rewrite (proj2 (find_peer_in _ _) NP). reflexivity.
      * rewrite find_other by (cbn; congruence). reflexivity.
    + intros b B _ D _ _. cbn [received]. rewrite app_nil_r. unfold unheard. rewrite find_other by (cbn; congruence). reflexivity.
  - (* a link removed *)
    destruct (find_peer a (slots m)) as [s|] eqn:FP; [|discriminate]. cbn zeta in E.
    assert (IA : In a (peers (slots m))).
    { destruct (in_dec N.eq_dec a (peers (slots m))) as [I|I]; [exact I|]. apply find_peer_in in I. congruence. }
    assert (PM := swap_remove a _ OR IA).
    assert (PE : forall l, peers (at_peer a (fun _ => idle_slot) l) = swap a EMPTY (peers l)) by (apply at_peer_peers; reflexivity).
    assert (ND2 : NoDup (a :: filter filled (swap a EMPTY (peers (slots m))))).
    { eapply Permutation_NoDup; [symmetry; exact PM|exact ND]. }
    apply NoDup_cons_iff in ND2 as [NA ND2]. rewrite (filled_in a _ OR) in NA.
    assert (M : slots m' = at_peer a (fun _ => idle_slot) (slots m) /\
      match hci (s_link s) with None => l = [] | Some c => exists v, refusal c UNKNOWN_CONNECTION = Some v /\ l = [Entry a Manager (Said v)] end).
    { destruct (hci (s_link s)) as [c|].
      - destruct (answer a (refusal c UNKNOWN_CONNECTION)) as [l0| | |] eqn:Y; try discriminate.
        cbn [bind] in E. injection E as <- <-. apply answer_log in Y. auto.
      - injection E as <- <-. auto. }
    destruct M as (M & L). rewrite M. cbn [linked]. split; [split; [|split]|split].
    + apply forall_at_peer; [exact G|]. intros x X Y. repeat split; reflexivity.
    + rewrite PE. exact ND2.
    + intros b B. rewrite PE, filter_In. rewrite <- (K b B), <- (filled_in b (swap _ _ _) B), <- (filled_in b (peers (slots m)) B).
      rewrite <- (Permutation_in' (eq_refl b) PM). cbn [In].
      destruct (N.eq_dec b a) as [->|D].
      * rewrite N.eqb_refl. cbn. rewrite (filled_in a _ OR). intuition congruence.
      * rewrite (proj2 (N.eqb_neq b a) D). cbn. intuition congruence.
    + intros _ b B. cbn [given]. rewrite app_nil_r. unfold waiting. destruct (N.eq_dec b a) as [->|D].
      * rewrite FP. rewrite (proj2 (find_peer_in a (at_peer _ _ _))) by (rewrite PE; exact NA). rewrite app_nil_r.
        unfold held_command. destruct (hci (s_link s)) as [c|]; [|subst l; reflexivity].
        destruct L as (v & R & ->). destruct c; cbn in R; try discriminate R; injection R as <-; cbn [answered]; rewrite N.eqb_refl; reflexivity.
      * rewrite find_other by (cbn; congruence).
        destruct (hci (s_link s)) as [c|]; [|subst l; reflexivity].
        destruct L as (v & R & ->). apply N.eqb_neq in D. rewrite N.eqb_sym in D.
        destruct v; cbn [answered]; rewrite ?D; reflexivity.
    + intros b B _ _ D _. cbn [received]. rewrite app_nil_r. unfold unheard. rewrite find_other by (cbn; congruence).
      destruct (hci (s_link s)) as [c|]; [|subst l; reflexivity]. destruct L as (v & R & ->). reflexivity.
  - (* a tick *)
    destruct (tick_slots rng e (slots m) (drawn m)) as [[[l0 o0] n0]| | |] eqn:T; try discriminate.
    cbn [bind] in E. injection E as <- <-. cbn [slots given linked received].
    destruct (tick_good e _ _ _ _ _ T G ND) as (P & G2 & W).
    split; [split; [exact G2|]; rewrite P; auto|]. split.
    + intros _ a A. rewrite app_nil_r. apply W. exact A.
    + intros a A _ _ _ _. rewrite app_nil_r. apply W. exact A.
  - (* a reset *)
    injection E as <- <-. cbn [linked slots]. split; [|split; congruence].
    split; [|split].
    + cbn. repeat constructor.
    + cbn. constructor.
    + intros b B. cbn. intuition congruence.
Qed.

(** * Histories *)

Lemma orderly_app h1 : forall h2 l, orderly l (h1 ++ h2) <-> orderly l h1 /\ orderly (linked h1 l) h2.
Proof.
  induction h1 as [|[e o] h1 IH]; intros h2 l; cbn [app orderly].
  - cbn. intuition auto.
  - rewrite IH. assert (X : linked ((e, o) :: h1) l = linked h1 (linked [(e, o)] l)) by (destruct o; reflexivity).
    rewrite X. intuition auto.
Qed.

Lemma given_cons a x h : given a (x :: h) = given a [x] ++ given a h.
Proof. destruct x as [e []]; cbn [given app]; auto. destruct (target e c) as [b|]; auto. destruct (b =? a); reflexivity. Qed.

Lemma received_cons a x h : received a (x :: h) = received a [x] ++ received a h.
Proof. destruct x as [e []]; cbn [received app]; auto. destruct (from =? a); reflexivity. Qed.

Lemma run_sound : forall h known m m' l, sound known (slots m) -> orderly known h -> run rng m h = Ok (m', l) ->
  sound (linked h known) (slots m') /\
  ((forall e o, In (e, o) h -> o <> Reset) -> forall a, a <> EMPTY ->
     waiting a (slots m) ++ given a h = answered a l ++ waiting a (slots m')).
Proof.
  induction h as [|[e o] h IH]; intros known m m' l S OR E; cbn [run] in E.
  - injection E as <- <-. cbn. split; [exact S|]. intros. apply app_nil_r.
  - destruct (step rng e m o) as [[m1 l1]| | |] eqn:X; try discriminate. cbn [bind] in E.
    destruct (run rng m1 h) as [[m2 l2]| | |] eqn:Y; try discriminate. cbn [bind] in E. injection E as <- <-.
    destruct OR as (O1 & O2). destruct (step_sound known e o m m1 l1 S (conj O1 Logic.I) X) as (S1 & A1 & _).
    destruct (IH _ _ _ _ S1 O2 Y) as (S2 & A2).
    assert (L : linked ((e, o) :: h) known = linked h (linked [(e, o)] known)) by (destruct o; reflexivity).
    rewrite L. split; [exact S2|]. intros NR a A. rewrite given_cons, answered_app, app_assoc.
    rewrite (A1 (NR e o (or_introl eq_refl)) a A), <- app_assoc.
    rewrite (A2 (fun e0 o0 I => NR e0 o0 (or_intror I)) a A), app_assoc. reflexivity.
Qed.

Lemma new_sound n : sound [] (slots (new_manager n)).
Proof.
  split; [|split].
  - cbn. repeat constructor.
  - cbn. constructor.
  - intros b B. cbn. intuition congruence.
Qed.

(** Commands are answered in order, each once; the last one may still wait. *)
Theorem answered_in_order n h m l a :
  run rng (new_manager n) h = Ok (m, l) -> orderly [] h -> (forall e, ~ In (e, Reset) h) -> a <> EMPTY ->
  exists rest, given a h = answered a l ++ rest /\ (List.length rest <= 1)%nat.
Proof.
  intros E OR NR A. destruct (run_sound h [] _ _ _ (new_sound n) OR E) as (_ & W).
  exists (waiting a (slots m)). split.
  - rewrite <- (W (fun e o I X => NR e (eq_ind o (fun o => In (e, o) h) I Reset X)) a A).
    unfold waiting at 1. rewrite (proj2 (find_peer_in a _)); [reflexivity|]. cbn. intuition congruence.
  - unfold waiting. destruct (find_peer a (slots m)) as [s|]; [|cbn; lia]. unfold held_command.
    destruct (hci (s_link s)); cbn; lia.
Qed.

(** ** Sessions: from the moment a link is added to the moment it is removed *)

Lemma session_start n pre e a m l0 m1 l1 :
  run rng (new_manager n) pre = Ok (m, l0) -> orderly [] (pre ++ [(e, AddLink a)]) ->
  step rng e m (AddLink a) = Ok (m1, l1) ->
  a <> EMPTY /\ find_peer a (slots m) = None /\ clean (slots m) /\ l1 = [] /\
  exists known, sound known (slots m1) /\ In a (peers (slots m1)) /\ unheard a (slots m1) = [].
Proof.
  intros E OR ST. apply orderly_app in OR as (O1 & O2). destruct (run_sound pre [] _ _ _ (new_sound n) O1 E) as (S & _).
  pose proof S as (G & ND & K). destruct O2 as ((A & NI) & _).
  assert (NP : ~ In a (peers (slots m))) by (intros I; apply NI; apply K; assumption).
  destruct (step_sound _ e (AddLink a) m m1 l1 S (conj (conj A NI) Logic.I) ST) as (S1 & W & _).
  split; [exact A|]. split; [apply find_peer_in; exact NP|]. split; [apply good_none; exact G|].
  cbn [step] in ST. destruct (find_peer EMPTY (slots m)) as [s|] eqn:FP; [|discriminate]. injection ST as <- <-. split; [reflexivity|].
  eexists. split; [exact S1|].
  assert (FA : find_peer a (slots (Managing (at_peer EMPTY (fun s => Slot (Link a (hci (s_link s)) (queue (s_link s))) (Some (starts a))) (slots m))
                (drawn m))) = Some (Slot (Link a (hci (s_link s)) (queue (s_link s))) (Some (starts a)))).
  { cbn [slots]. rewrite find_moved by auto. rewrite FP. reflexivity. }
  split.
  - destruct (in_dec N.eq_dec a (peers (slots (Managing (at_peer EMPTY (fun s => Slot (Link a (hci (s_link s)) (queue (s_link s))) (Some (starts a))) (slots m))
                (drawn m))))) as [I|I]; [exact I|]. apply find_peer_in in I. congruence.
  - unfold unheard. rewrite FA. cbn. destruct (find_peer_some _ _ _ FP) as (IS & PS).
    assert (GS := proj1 (Forall_forall _ _) G s IS). unfold good_slot in GS. rewrite PS in GS. cbn in GS. apply GS.
Qed.

(** A procedure of a link obeys the automata that its tree fits. *)
Theorem procedure_obeys M w a s n pre e h m l0 m' l :
  w <> Manager -> (forall s, resting M s = true -> fits a M s (start w a)) ->
  run rng (new_manager n) pre = Ok (m, l0) -> orderly [] (pre ++ [(e, AddLink a)]) ->
  stays a h -> run rng m ((e, AddLink a) :: h) = Ok (m', l) ->
  resting M s = true -> obeys M s (part a w l).
Proof.
  intros W F E OR ST R RS. pose proof R as R2. cbn [run] in R2.
  destruct (step rng e m (AddLink a)) as [[m1 l1]| | |] eqn:X; try discriminate.
  destruct (session_start n pre e a m l0 m1 l1 E OR X) as (A & FP & CL & _).
  eapply session; eauto.
Qed.

Lemma unheard_kept known a : forall h m m' l, a <> EMPTY -> sound known (slots m) -> In a (peers (slots m)) ->
  orderly known h -> stays a h -> run rng m h = Ok (m', l) ->
  unheard a (slots m) ++ received a h = heard a l ++ unheard a (slots m').
Proof.
  intros h. revert known. induction h as [|[e o] h IH]; intros known m m' l A S I OR ST E; cbn [run] in E.
  - injection E as <- <-. cbn. apply app_nil_r.
  - destruct (step rng e m o) as [[m1 l1]| | |] eqn:X; try discriminate. cbn [bind] in E.
    destruct (run rng m1 h) as [[m2 l2]| | |] eqn:Y; try discriminate. cbn [bind] in E. injection E as <- <-.
    destruct OR as (O1 & O2). destruct (step_sound known e o m m1 l1 S (conj O1 Logic.I) X) as (S1 & _ & U).
    destruct (ST e o (or_introl eq_refl)) as (N1 & N2 & N3).
    assert (I1 : In a (peers (slots m1))).
    { apply S1; [exact A|]. apply S in I; [|exact A]. destruct o; cbn [linked]; auto.
      - right. exact I.
      - apply filter_In. split; [exact I|]. rewrite (proj2 (N.eqb_neq a a0)) by congruence. reflexivity.
      - congruence. }
    rewrite received_cons, heard_app, app_assoc, (U a A I N2 N1 N3), <- app_assoc.
    rewrite (IH _ m1 m2 l2 A S1 I1 O2 (fun e0 o0 J => ST e0 o0 (or_intror J)) Y), app_assoc. reflexivity.
Qed.

(** Packets are taken in the order of their arrival, each by one procedure. *)
Theorem heard_in_order a n pre e h m l0 m' l :
  run rng (new_manager n) pre = Ok (m, l0) -> orderly [] (pre ++ (e, AddLink a) :: h) ->
  stays a h -> run rng m ((e, AddLink a) :: h) = Ok (m', l) ->
  exists rest, received a h = heard a l ++ rest.
Proof.
  intros E OR ST R. cbn [run] in R.
  destruct (step rng e m (AddLink a)) as [[m1 l1]| | |] eqn:X; try discriminate. cbn [bind] in R.
  destruct (run rng m1 h) as [[m2 l2]| | |] eqn:Y; try discriminate. cbn [bind] in R. injection R as <- <-.
  assert (OR1 : orderly [] (pre ++ [(e, AddLink a)]) /\ orderly (a :: linked pre []) h).
  { rewrite orderly_app in OR. destruct OR as (O1 & O2). cbn [orderly] in O2.
    rewrite orderly_app. cbn [orderly]. destruct O2 as (O2 & O3). cbn [linked] in O3. auto. }
  destruct OR1 as (OR1 & OR2). destruct (session_start n pre e a m l0 m1 l1 E OR1 X) as (A & FP & CL & -> & _ & _ & IN & U).
  apply orderly_app in OR1 as (O1 & O2). destruct (run_sound pre [] _ _ _ (new_sound n) O1 E) as (S & _).
  destruct (step_sound _ e (AddLink a) m m1 [] S O2 X) as (S1 & _). cbn [linked] in S1.
  exists (unheard a (slots m2)). cbn [app].
  rewrite <- (unheard_kept _ a h m1 m2 l2 A S1 IN OR2 ST Y), U. reflexivity.
Qed.

End Random.
