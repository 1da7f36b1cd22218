(** The procedures obey their automata, in all histories of the manager. *)
From Verif Require Import Prelude Ec Lmp LmpSpec.
Open Scope N_scope.

(** * Trees that obey an automaton *)

Definition after (M : machine) (s : state M) (x : action) (P : state M -> Prop) : Prop :=
  match next M s x with Some t => P t | None => False end.

(** The address a command names, if it names one. *)
Definition names_address (c : command) : option address :=
  match c with
  | AuthenticationRequested _ | SetConnectionEncryption _ _ => None
  | LinkKeyReply a _ | LinkKeyNegative a | PinReply a | PinNegative a | IoReply a _ | IoNegative a _
  | ConfirmationReply a | ConfirmationNegative a | PasskeyReply a _ | PasskeyNegative a | OobReply a
  | OobNegative a | Keypress a | OobExtendedReply a => Some a
  end.

Definition addressed (a : address) (c : command) : Prop :=
  match names_address c with Some b => b = a | None => True end.

Definition proper (a : address) (l : link) : Prop := forall c, hci l = Some c -> addressed a c.

Section To.
Variable a : address.

Fixpoint fits (M : machine) (s : state M) (p : proc) {struct p} : Prop :=
  match p with
  | Done => resting M s = true
  | Panic => True
  | Tell e k => after M s (Said e) (fun t => fits M t k)
  | Air x k => after M s (Sent x) (fun t => fits M t k)
  | Features page k => forall f, after M s (Looked page f) (fun t => fits M t (k f))
  | Handle k => forall h, after M s (Named h) (fun t => fits M t (k h))
  | Draw c k => forall r, after M s (Drew c r) (fun t => fits M t (k r))
  | Hci w k => pausing M s = true /\ forall c, w c = true -> addressed a c -> after M s (Took c) (fun t => fits M t (k c))
  | Receive w k => pausing M s = true /\ forall x, w x = true -> after M s (Heard x) (fun t => fits M t (k x))
  | Await o k => pausing M s = true /\
      after M s (Heard (Accepted o)) (fun t => fits M t (k true)) /\
      (forall x, after M s (Heard (NotAccepted o x)) (fun t => fits M t (k false))) /\
      (forall q, q <> o -> next M s (Heard (Accepted q)) = Some s) /\
      (forall q x, q <> o -> next M s (Heard (NotAccepted q x)) = Some s)
  | Keypad a0 k => pausing M s = true /\
      (forall b v, after M s (Took (PasskeyReply b v)) (fun t =>
         after M t (Said (Complete kPasskeyReply SUCCESS a0)) (fun t => fits M t (k true)))) /\
      (forall b, after M s (Took (PasskeyNegative b)) (fun t =>
         after M t (Said (Complete kPasskeyNegative SUCCESS a0)) (fun t => fits M t (k false)))) /\
      (forall b, after M s (Took (Keypress b)) (fun t =>
         after M t (Said (Complete kKeypress SUCCESS a0)) (fun t => t = s)))
  end.

End To.

Section Random.
Variable rng : nat -> list N.
Variable a : address.
Notation fits := (fits a).

Lemma poll_peer e p : forall l n, peer (at_link (poll rng e p l n)) = peer l.
Proof.
  induction p; intros l n; cbn [poll]; try reflexivity; cbn [log at_link]; auto.
  - destruct (features e page); cbn; auto.
  - destruct (hci l) as [c|]; [|reflexivity]. destruct (wanted c); cbn [log at_link]; [rewrite H|]; reflexivity.
  - destruct (queue l) as [|x q]; [reflexivity|]. destruct (wanted x); cbn [log at_link]; [rewrite H|]; reflexivity.
  - cbn zeta. destruct (queue l) as [|[] q] eqn:Q; try reflexivity; cbn [log at_link];
      destruct (opcode0 =? opcode); cbn [log at_link]; try (rewrite H; reflexivity); try reflexivity.
    cbn [queue with_queue]. destruct q as [|[] q]; try reflexivity. cbn [log at_link].
    destruct (opcode1 =? opcode); [rewrite H|]; reflexivity.
  - destruct (hci l) as [[]|]; try reflexivity; cbn [log at_link]; try (rewrite H; reflexivity); reflexivity.
Qed.

Lemma poll_hci e p : forall l n, hci (at_link (poll rng e p l n)) = hci l \/ hci (at_link (poll rng e p l n)) = None.
Proof.
  induction p; intros l n; cbn [poll]; auto; cbn [log at_link]; auto.
  - destruct (features e page); cbn; auto.
  - destruct (hci l) as [c|] eqn:E; [|auto]. destruct (wanted c); cbn [log at_link]; [|auto].
    destruct (H c (with_hci None l) n) as [X|X]; rewrite X; auto.
  - destruct (queue l) as [|x q]; [auto|]. destruct (wanted x); cbn [log at_link]; [|auto].
    destruct (H x (with_queue q l) n) as [X|X]; rewrite X; auto.
  - cbn zeta. destruct (queue l) as [|[] q] eqn:Q; auto; cbn [log at_link].
    + destruct (opcode0 =? opcode).
      * destruct (H true (with_queue q l) n) as [X|X]; rewrite X; auto.
      * cbn [queue with_queue]. destruct q as [|[] q]; auto. cbn [log at_link].
        destruct (opcode1 =? opcode); [|auto].
        match goal with |- context [poll _ _ _ ?x n] => destruct (H false x n) as [X|X]; rewrite X; auto end.
    + destruct (opcode0 =? opcode); [|auto].
      destruct (H false (with_queue q l) n) as [X|X]; rewrite X; auto.
  - destruct (hci l) as [[]|] eqn:E; auto; cbn [log at_link]; auto;
      match goal with |- context [poll _ _ (k ?b) ?x n] => destruct (H b x n) as [X|X]; rewrite X; auto end.
Qed.

Lemma poll_proper e p l n : proper a l -> proper a (at_link (poll rng e p l n)).
Proof. intros P c E. apply P. destruct (poll_hci e p l n) as [X|X]; congruence. Qed.

Lemma proper_queue q l : proper a l -> proper a (with_queue q l).
Proof. intros P c. apply P. Qed.

Lemma proper_none l : proper a (with_hci None l).
Proof. intros c. discriminate. Qed.

Definition stopped (M : machine) (t : state M) (x : stop) : Prop :=
  match x with Waiting q => fits M t q /\ pausing M t = true | Finished => resting M t = true | _ => True end.

(** The automaton reads what a poll does and is left in a state that fits what remains. *)
Definition reads (M : machine) (s : state M) (g : progress) : Prop :=
  exists t, drive M s (done g) = Some t /\ stopped M t (at_stop g).

Lemma reads_log M s x g : after M s x (fun t => reads M t g) -> reads M s (log x g).
Proof.
  unfold after, reads. intros A. destruct (next M s x) as [t|] eqn:E; [|contradiction].
  destruct A as (u & D & S). exists u. cbn [log done drive at_stop]. rewrite E. auto.
Qed.

Definition waits (p : proc) : bool :=
  match p with Hci _ _ | Receive _ _ | Await _ _ | Keypad _ _ => true | _ => false end.

Lemma waits_pausing M s p : waits p = true -> fits M s p -> pausing M s = true.
Proof. destruct p; try discriminate; intros _ F; apply F. Qed.

Lemma reads_here M s p l n : waits p = true -> fits M s p -> reads M s (Progress (Waiting p) l [] n).
Proof. intros W F. exists s. split; [reflexivity|]. split; [exact F|]. exact (waits_pausing M s p W F). Qed.

Lemma after_weaken (M : machine) (s : state M) x (P Q : state M -> Prop) :
  (forall t, P t -> Q t) -> after M s x P -> after M s x Q.
Proof. unfold after. destruct (next M s x); auto. Qed.

Lemma after_same (M : machine) (s : state M) x (P : state M -> Prop) : next M s x = Some s -> P s -> after M s x P.
Proof. unfold after. intros ->. auto. Qed.

Lemma poll_fits M e p : forall s l n, proper a l -> fits M s p -> reads M s (poll rng e p l n).
Proof.
  induction p; intros s l n P F; cbn [poll].
  - exists s. split; [reflexivity|exact F].
  - exists s. split; [reflexivity|exact Logic.I].
  - apply reads_log. cbn [LmpProofs.fits] in F. eapply after_weaken; [|exact F]. auto.
  - apply reads_log. cbn [LmpProofs.fits] in F. eapply after_weaken; [|exact F]. auto.
  - cbn [LmpProofs.fits] in F. destruct (features e page).
    + apply reads_log. eapply after_weaken; [|apply F]. auto.
    + exists s. split; [reflexivity|exact Logic.I].
  - cbn [LmpProofs.fits] in F. apply reads_log. eapply after_weaken; [|apply F]. auto.
  - cbn [LmpProofs.fits] in F. cbn zeta. apply reads_log. eapply after_weaken; [|apply F]. auto.
  - destruct (hci l) as [c|] eqn:E; [|apply reads_here; [reflexivity|exact F]].
    destruct (wanted c) eqn:W; [|apply reads_here; [reflexivity|exact F]].
    cbn [LmpProofs.fits] in F. apply reads_log. eapply after_weaken; [|apply (proj2 F c W (P c E))].
    intros t T. apply H; auto using proper_none.
  - destruct (queue l) as [|x q]; [apply reads_here; [reflexivity|exact F]|].
    destruct (wanted x) eqn:W; [|apply reads_here; [reflexivity|exact F]].
    cbn [LmpProofs.fits] in F. apply reads_log. eapply after_weaken; [|apply (proj2 F x W)].
    intros t T. apply H; auto using proper_queue.
  - assert (R : forall l, proper a l -> reads M s
        match queue l with
        | NotAccepted o x :: q =>
            log (Heard (NotAccepted o x))
              (if o =? opcode then poll rng e (k false) (with_queue q l) n
               else Progress (Waiting (Await opcode k)) (with_queue q l) [] n)
        | _ => Progress (Waiting (Await opcode k)) l [] n
        end).
    { intros m PM. destruct (queue m) as [|[] q]; try (apply reads_here; [reflexivity|exact F]).
      apply reads_log. destruct (opcode0 =? opcode) eqn:E.
      - apply N.eqb_eq in E as ->. cbn [LmpProofs.fits] in F. destruct F as (_ & _ & F & _).
        eapply after_weaken; [|apply F]. intros t T. apply H; auto using proper_queue.
      - apply N.eqb_neq in E. apply after_same; [apply F; exact E|]. apply reads_here; [reflexivity|exact F]. }
    cbn zeta. destruct (queue l) as [|[] q] eqn:Q; try (apply reads_here; [reflexivity|exact F]).
    + apply reads_log. destruct (opcode0 =? opcode) eqn:E.
      * apply N.eqb_eq in E as ->. cbn [LmpProofs.fits] in F. destruct F as (_ & F & _).
        eapply after_weaken; [|apply F]. intros t T. apply H; auto using proper_queue.
      * apply N.eqb_neq in E. apply after_same; [apply F; exact E|]. apply R. apply proper_queue; auto.
    + specialize (R l P). rewrite Q in R. exact R.
  - cbn [LmpProofs.fits] in F. destruct F as (F0 & F1 & F2 & F3).
    destruct (hci l) as [[]|]; try (apply reads_here; [reflexivity|]; cbn [LmpProofs.fits]; auto); cbn zeta; apply reads_log; cbn [kind_of].
    + eapply after_weaken; [|apply F1]. intros t A. apply reads_log. eapply after_weaken; [|exact A].
      intros u U. apply H; auto using proper_none.
    + eapply after_weaken; [|apply F2]. intros t A. apply reads_log. eapply after_weaken; [|exact A].
      intros u U. apply H; auto using proper_none.
    + eapply after_weaken; [|apply F3]. intros t A. apply reads_log. eapply after_weaken; [|exact A].
      intros u ->. apply reads_here; [reflexivity|]. cbn [LmpProofs.fits]. auto.
Qed.

Lemma drive_app M l1 : forall s l2, drive M s (l1 ++ l2) = match drive M s l1 with Some t => drive M t l2 | None => None end.
Proof.
  induction l1 as [|x l1 IH]; intros s l2; [reflexivity|]. cbn [app drive]. destruct (next M s x); auto.
Qed.

Lemma spin_kept e first : forall fuel p l n q k o n',
  spin rng fuel e first p l n = Ok (q, k, o, n') ->
  peer k = peer l /\ (hci k = hci l \/ hci k = None).
Proof.
  induction fuel as [|fuel IH]; intros p l n q k o n' E; cbn [spin] in E; cbn zeta in E;
    pose proof (poll_peer e p l n) as PP; pose proof (poll_hci e p l n) as PH;
    destruct (at_stop (poll rng e p l n)) as [q0| | |] eqn:Q; try discriminate.
  - injection E as <- <- <- <-. auto.
  - injection E as <- <- <- <-. auto.
  - destruct (spin rng fuel e first first (at_link (poll rng e p l n)) (draws (poll rng e p l n)))
      as [[[[q1 k1] o1] n1]| | |] eqn:G; try discriminate.
    cbn [bind] in E. injection E as <- <- <- <-. apply IH in G as (A & B). split; [congruence|].
    destruct B as [B|B], PH as [C|C]; rewrite B; auto.
Qed.

Lemma spin_fits M e first : (forall s, resting M s = true -> fits M s first) ->
  forall fuel p s l n q k o n', proper a l -> fits M s p ->
  spin rng fuel e first p l n = Ok (q, k, o, n') ->
  exists t, drive M s o = Some t /\ fits M t q /\ pausing M t = true.
Proof.
  intros F0. induction fuel as [|fuel IH]; intros p s l n q k o n' P F E; cbn [spin] in E; cbn zeta in E;
    pose proof (poll_fits M e p s l n P F) as (t & D & S); pose proof (poll_proper e p l n P) as PP;
    destruct (at_stop (poll rng e p l n)) as [q0| | |] eqn:Q; try discriminate.
  - injection E as <- <- <- <-. exists t. auto.
  - injection E as <- <- <- <-. exists t. auto.
  - cbn [stopped] in S.
    destruct (spin rng fuel e first first (at_link (poll rng e p l n)) (draws (poll rng e p l n)))
      as [[[[q1 k1] o1] n1]| | |] eqn:G; try discriminate.
    cbn [bind] in E. injection E as <- <- <- <-.
    destruct (IH _ _ _ _ _ _ _ _ PP (F0 _ S) G) as (u & D2 & S2).
    exists u. rewrite drive_app, D. auto.
Qed.

(** * Part of a log *)

Lemma part_app b w l1 l2 : part b w (l1 ++ l2) = part b w l1 ++ part b w l2.
Proof. unfold part. rewrite filter_app, map_app. reflexivity. Qed.

Definition same_who (x y : who) : bool :=
  match x, y with
  | Manager, Manager | Authenticating, Authenticating | Authenticated, Authenticated
  | Encrypting, Encrypting | Encrypted, Encrypted | Featured, Featured => true
  | _, _ => false
  end.

Lemma same_who_true x y : same_who x y = true <-> x = y.
Proof. destruct x, y; cbn; split; congruence. Qed.

Lemma part_here w o : part a w (map (Entry a w) o) = o.
Proof.
  induction o as [|x o IH]; [reflexivity|]. unfold part in *. cbn [map filter on by_ what].
  rewrite N.eqb_refl. destruct w; cbn; f_equal; exact IH.
Qed.

Lemma part_other w b v o : a <> b \/ w <> v -> part a w (map (Entry b v) o) = [].
Proof.
  intros D. induction o as [|x o IH]; [reflexivity|]. unfold part in *. cbn [map filter on by_ what].
  replace ((b =? a) && same_who v w) with false in *.
  - unfold same_who. fold (same_who v w). 
    destruct ((b =? a) && _) eqn:E; [|exact IH]. exfalso.
    apply andb_prop in E as [E1 E2]. apply N.eqb_eq in E1. apply same_who_true in E2. destruct D; congruence.
  - symmetry. apply andb_false_iff. destruct D as [D|D].
    + left. apply N.eqb_neq. congruence.
    + right. destruct (same_who v w) eqn:E; [|reflexivity]. apply same_who_true in E. congruence.
Qed.

Lemma part_none w l : Forall (fun x => on x <> a) l -> part a w l = [].
Proof.
  induction 1 as [|x l H _ IH]; [reflexivity|]. unfold part in *. cbn [filter].
  apply N.eqb_neq in H. rewrite H. cbn [andb]. exact IH.
Qed.

(** * The procedures of a slot *)

Definition names (ps : list (who * proc)) : list who := map fst ps.

Lemma poll_all_other e : forall ps l n qs k o n', poll_all rng e ps l n = Ok (qs, k, o, n') ->
  peer k = peer l /\ (hci k = hci l \/ hci k = None) /\ names qs = names ps /\
  Forall (fun x => on x = peer l /\ In (by_ x) (names ps)) o.
Proof.
  induction ps as [|[w p] ps IH]; intros l n qs k o n' E; cbn [poll_all] in E.
  - injection E as <- <- <- <-. auto.
  - destruct (spin rng (S (messages l)) e (start w (peer l)) p l n) as [[[[q k1] o1] n1]| | |] eqn:G; try discriminate.
    cbn [bind] in E.
    destruct (poll_all rng e ps k1 n1) as [[[[qs1 k2] o2] n2]| | |] eqn:P; try discriminate.
    cbn [bind] in E. injection E as <- <- <- <-.
    destruct (spin_kept _ _ _ _ _ _ _ _ _ _ G) as (K & H).
    destruct (IH _ _ _ _ _ _ P) as (K2 & H2 & N2 & F2).
    split; [congruence|]. split; [destruct H2 as [X|X], H as [Y|Y]; rewrite X; auto|].
    split; [cbn; f_equal; exact N2|].
    apply Forall_app. split.
    + apply Forall_forall. intros x X. apply in_map_iff in X as (y & <- & _). cbn. auto.
    + eapply Forall_impl; [|exact F2]. cbn. rewrite K. intuition auto.
Qed.

Lemma poll_all_fits M w e : forall ps l n qs k o n' s,
  (forall s, resting M s = true -> fits M s (start w a)) ->
  NoDup (names ps) -> peer l = a -> proper a l ->
  poll_all rng e ps l n = Ok (qs, k, o, n') ->
  (forall p, In (w, p) ps -> fits M s p) -> pausing M s = true ->
  exists t, drive M s (part a w o) = Some t /\ (forall p, In (w, p) qs -> fits M t p) /\ pausing M t = true.
Proof.
  induction ps as [|[v p] ps IH]; intros l n qs k o n' s F0 ND PA PR E F Z; cbn [poll_all] in E.
  - injection E as <- <- <- <-. exists s. split; [reflexivity|]. split; [intros p []|exact Z].
  - destruct (spin rng (S (messages l)) e (start v (peer l)) p l n) as [[[[q k1] o1] n1]| | |] eqn:G; try discriminate.
    cbn [bind] in E.
    destruct (poll_all rng e ps k1 n1) as [[[[qs1 k2] o2] n2]| | |] eqn:P; try discriminate.
    cbn [bind] in E. injection E as <- <- <- <-.
    cbn [names map fst] in ND. apply NoDup_cons_iff in ND as [NI ND2].
    destruct (poll_all_other e _ _ _ _ _ _ _ P) as (K2 & _ & N2 & F2).
    destruct (spin_kept _ _ _ _ _ _ _ _ _ _ G) as (K1 & H1).
    rewrite PA in *.
    destruct (same_who v w) eqn:W.
    + apply same_who_true in W. subst v.
      destruct (spin_fits M e _ F0 _ _ s _ _ _ _ _ _ PR (F p (or_introl eq_refl)) G) as (t & D & T & U).
      exists t. split; [|split; [|exact U]].
      * rewrite part_app, part_here.
        replace (part a w o2) with (@nil action); [rewrite app_nil_r; exact D|].
        symmetry. clear -NI F2. induction F2 as [|x l0 [_ H] _ IH]; [reflexivity|].
        unfold part in *. cbn [filter]. destruct (_ && _) eqn:E; [|exact IH]. exfalso.
        apply andb_prop in E as [_ E2]. apply (same_who_true (by_ x) w) in E2. subst w. contradiction.
      * intros p0 [X|X]; [injection X as ->; exact T|]. exfalso. apply NI.
        change (map fst ps) with (names ps). rewrite <- N2. apply in_map_iff. exists (w, p0). auto.
    + assert (NW : w <> v) by (intros ->; rewrite (proj2 (same_who_true v v) eq_refl) in W; discriminate).
      assert (PR1 : proper a k1). { intros c C. apply PR. destruct H1; congruence. }
      destruct (IH _ _ _ _ _ _ s F0 ND2 K1 PR1 P) as (t & D & T & U); [intros; apply F; right; assumption|exact Z|].
      exists t. split; [|split; [|exact U]].
      * rewrite part_app, (part_other w a v) by auto. exact D.
      * intros p0 [X|X]; [congruence|]. exact (T p0 X).
Qed.

(** * All histories *)

Definition running (M : machine) (w : who) (t : state M) (s : slot) : Prop :=
  proper a (s_link s) /\ pausing M t = true /\ exists ps, s_procs s = Some ps /\ NoDup (names ps) /\ (forall p, In (w, p) ps -> fits M t p).

(** One slot, and no other, is that of [a]. *)
Definition held (P : slot -> Prop) (l : list slot) : Prop :=
  exists l1 s l2, l = l1 ++ s :: l2 /\ peer (s_link s) = a /\ P s /\
    Forall (fun x => peer (s_link x) <> a) l1 /\ Forall (fun x => peer (s_link x) <> a) l2.

Lemma held_cons P x l : peer (s_link x) <> a -> held P l -> held P (x :: l).
Proof.
  intros D (l1 & s & l2 & -> & B & C & E & F). exists (x :: l1), s, l2. repeat split; auto.
Qed.

Lemma at_peer_apart b f l :
  (forall s, peer (s_link s) = b -> peer (s_link (f s)) <> a) ->
  Forall (fun x => peer (s_link x) <> a) l -> Forall (fun x => peer (s_link x) <> a) (at_peer b f l).
Proof.
  intros K F. induction F as [|x l2 X F IH]; cbn [at_peer]; [constructor|].
  destruct (peer (s_link x) =? b) eqn:Y; constructor; auto. apply K. apply N.eqb_eq. exact Y.
Qed.

Lemma at_peer_other b f l (P : slot -> Prop) : a <> b ->
  (forall s, peer (s_link s) = b -> peer (s_link (f s)) <> a) ->
  held P l -> held P (at_peer b f l).
Proof.
  intros D K (l1 & s & l2 & -> & B & C & E & F).
  induction E as [|x l1 X E IH]; cbn [app at_peer].
  - rewrite (proj2 (N.eqb_neq _ _)) by congruence.
    exists [], s, (at_peer b f l2). repeat split; auto using at_peer_apart.
  - destruct (peer (s_link x) =? b) eqn:Y.
    + exists (f x :: l1), s, l2. repeat split; auto. constructor; auto. apply K. apply N.eqb_eq. exact Y.
    + apply held_cons; auto.
Qed.

Lemma at_peer_same f l (P Q : slot -> Prop) :
  (forall s, peer (s_link s) = a -> P s -> peer (s_link (f s)) = a /\ Q (f s)) ->
  held P l -> held Q (at_peer a f l).
Proof.
  intros K (l1 & s & l2 & -> & B & C & E & F).
  induction E as [|x l1 X E IH]; cbn [app at_peer].
  - rewrite B, N.eqb_refl. destruct (K s B C). exists [], (f s), l2. repeat split; auto.
  - rewrite (proj2 (N.eqb_neq _ _)) by congruence. apply held_cons; auto.
Qed.

(** A change of one slot that keeps its peer. *)
Lemma at_peer_kept b f l (P : slot -> Prop) :
  (forall s, peer (s_link (f s)) = peer (s_link s)) ->
  (forall s, P s -> P (f s)) ->
  held P l -> held P (at_peer b f l).
Proof.
  intros K L H. destruct (N.eq_dec a b) as [<-|D].
  - apply (at_peer_same f l P P); auto. intros s B C. rewrite K. auto.
  - apply at_peer_other; auto. intros s B. rewrite K. congruence.
Qed.

Lemma find_peer_none l : find_peer a l = None <-> Forall (fun x => peer (s_link x) <> a) l.
Proof.
  induction l as [|x l IH]; cbn [find_peer]; [split; constructor|].
  destruct (peer (s_link x) =? a) eqn:E.
  - split; [discriminate|]. intros F. inversion F; subst. apply N.eqb_eq in E. contradiction.
  - apply N.eqb_neq in E. rewrite IH. split; [constructor; auto|]. intros F. inversion F; auto.
Qed.

(** ** Ticks *)

Lemma tick_slot_inv e s n s' o n' :
  match s_procs s with
  | None => Ok (s, [], n)
  | Some ps => bind (poll_all rng e ps (s_link s) n) (fun r => let '(qs, k, o, n) := r in Ok (Slot k (Some qs), o, n))
  end = Ok (s', o, n') ->
  (s_procs s = None /\ s' = s /\ o = [] /\ n' = n) \/
  (exists ps qs k, s_procs s = Some ps /\ s' = Slot k (Some qs) /\ poll_all rng e ps (s_link s) n = Ok (qs, k, o, n')).
Proof.
  destruct (s_procs s) as [ps|].
  - destruct (poll_all rng e ps (s_link s) n) as [[[[qs k] o1] n1]| | |] eqn:E; try discriminate.
    intros H. injection H as <- <- <-. right. exists ps, qs, k. auto.
  - intros H. injection H as <- <- <-. left. auto.
Qed.

Lemma tick_slot_peer e s n s' o n' :
  match s_procs s with
  | None => Ok (s, [], n)
  | Some ps => bind (poll_all rng e ps (s_link s) n) (fun r => let '(qs, k, o, n) := r in Ok (Slot k (Some qs), o, n))
  end = Ok (s', o, n') ->
  peer (s_link s') = peer (s_link s) /\ Forall (fun x => on x = peer (s_link s)) o.
Proof.
  intros H. apply tick_slot_inv in H as [(A & -> & -> & ->)|(ps & qs & k & A & -> & B)]; [auto|].
  destruct (poll_all_other e _ _ _ _ _ _ _ B) as (K & _ & _ & F). split; [exact K|].
  eapply Forall_impl; [|exact F]. cbn. intuition auto.
Qed.

Lemma tick_apart e : forall l n l' o n', tick_slots rng e l n = Ok (l', o, n') ->
  Forall (fun x => peer (s_link x) <> a) l ->
  Forall (fun x => peer (s_link x) <> a) l' /\ Forall (fun x => on x <> a) o.
Proof.
  induction l as [|s l IH]; intros n l' o n' E F; cbn [tick_slots] in E.
  - injection E as <- <- <-. auto.
  - match type of E with bind ?x _ = _ => destruct x as [[[s1 o1] n1]| | |] eqn:G; try discriminate end. cbn [bind] in E.
    destruct (tick_slots rng e l n1) as [[[l2 o2] n2]| | |] eqn:T; try discriminate. cbn [bind] in E.
    injection E as <- <- <-. apply Forall_cons_iff in F as [F1 F2].
    destruct (tick_slot_peer _ _ _ _ _ _ G) as (K & O). destruct (IH _ _ _ _ T F2) as (A & B).
    split; [constructor; [congruence|exact A]|]. apply Forall_app. split; [|exact B].
    eapply Forall_impl; [|exact O]. cbn. congruence.
Qed.

Lemma tick_held M w e : (forall s, resting M s = true -> fits M s (start w a)) ->
  forall l n l' o n' t, tick_slots rng e l n = Ok (l', o, n') ->
  held (running M w t) l ->
  exists u, drive M t (part a w o) = Some u /\ held (running M w u) l'.
Proof.
  intros F0. induction l as [|s l IH]; intros n l' o n' t E (l1 & x & l2 & X & B & C & D1 & D2); cbn [tick_slots] in E.
  - destruct l1; discriminate.
  - match type of E with bind ?x _ = _ => destruct x as [[[s1 o1] n1]| | |] eqn:G; try discriminate end. cbn [bind] in E.
    destruct (tick_slots rng e l n1) as [[[l3 o2] n2]| | |] eqn:T; try discriminate. cbn [bind] in E.
    injection E as <- <- <-. destruct (tick_slot_peer _ _ _ _ _ _ G) as (K & O).
    destruct l1 as [|y l1]; cbn [app] in X; injection X as -> ->.
    + apply tick_slot_inv in G as [(A & _)|(ps & qs & k & A & -> & G)].
      { destruct C as (_ & _ & ps & C & _). congruence. }
      destruct C as (PR & PZ & ps2 & C & ND & C2). rewrite A in C. injection C as <-.
      destruct (poll_all_fits M w e _ _ _ _ _ _ _ t F0 ND B PR G C2 PZ) as (u & U & V & UZ).
      destruct (tick_apart e _ _ _ _ _ T D2) as (T1 & T2).
      exists u. rewrite part_app, (part_none _ o2) by exact T2. rewrite app_nil_r. split; [exact U|].
      destruct (poll_all_other e _ _ _ _ _ _ _ G) as (K3 & H3 & N2 & _).
      exists [], (Slot k (Some qs)), l3. split; [reflexivity|]. split; [cbn [s_link]; congruence|].
      split; [|split; [constructor|exact T1]]. split; [|split; [exact UZ|]].
      * intros c X. apply PR. cbn [s_link] in X. destruct H3; congruence.
      * exists qs. repeat split; auto. rewrite N2. exact ND.
    + apply Forall_cons_iff in D1 as [Y1 Y2].
      destruct (IH _ _ _ _ t T) as (u & U & V); [exists l1, x, l2; split; [reflexivity|]; split; [exact B|]; split; [exact C|]; split; assumption|].
      exists u. rewrite part_app, (part_none _ o1).
      * split; [exact U|]. apply held_cons; [congruence|exact V].
      * eapply Forall_impl; [|exact O]. cbn. congruence.
Qed.

Lemma answer_log b v l : answer b v = Ok l -> exists e, v = Some e /\ l = [Entry b Manager (Said e)].
Proof. destruct v as [e|]; cbn; [|discriminate]. intros H. injection H as <-. eauto. Qed.

Lemma target_addressed e c : target e c = Some a -> addressed a c.
Proof. destruct c; cbn; try exact (fun _ => Logic.I); intros H; congruence. Qed.

Lemma step_held M w e m o m' l t : w <> Manager -> a <> EMPTY ->
  (forall s, resting M s = true -> fits M s (start w a)) ->
  o <> RemoveLink a -> o <> AddLink a -> o <> Reset ->
  step rng e m o = Ok (m', l) ->
  held (running M w t) (slots m) ->
  exists u, drive M t (part a w l) = Some u /\ held (running M w u) (slots m').
Proof.
  intros W A F0 R1 R2 R3 E H.
  assert (Z : forall b v, part a w [Entry b Manager (Said v)] = []).
  { intros b v. apply (part_other w b Manager [Said v]). auto. }
  destruct o; cbn [step] in E.
  - assert (K : forall b l', bind (answer b (refusal c INVALID_PARAMETERS)) (fun o => Ok (m, o)) = Ok (m', l') ->
      exists u, drive M t (part a w l') = Some u /\ held (running M w u) (slots m')).
    { intros b l' X. destruct (answer b (refusal c INVALID_PARAMETERS)) as [l0| | |] eqn:Y; try discriminate.
      cbn [bind] in X. injection X as <- <-. apply answer_log in Y as (v & _ & ->). rewrite Z. exists t. auto. }
    destruct (target e c) as [b|] eqn:TG; [|apply (K _ _ E)].
    destruct (find_peer b (slots m)) as [s|]; [|apply (K _ _ E)].
    destruct (hci (s_link s)); [discriminate|]. injection E as <- <-.
    exists t. split; [reflexivity|]. cbn [slots]. destruct (N.eq_dec a b) as [<-|D].
    + apply (at_peer_same _ _ (running M w t)); [|exact H]. intros x X (_ & PZ & ps & P). split; [exact X|].
      split; [|split; [exact PZ|exists ps; exact P]]. intros c0 C0. cbn in C0. injection C0 as <-. exact (target_addressed _ _ TG).
    + apply at_peer_other; [exact D| |exact H]. cbn. congruence.
  - injection E as <- <-. exists t. split; [reflexivity|]. cbn [slots]. apply at_peer_kept; auto.
  - destruct (find_peer EMPTY (slots m)); [|discriminate]. injection E as <- <-.
    exists t. split; [reflexivity|]. cbn [slots]. apply at_peer_other; auto. cbn. congruence.
  - destruct (find_peer a0 (slots m)) as [s|]; [|discriminate]. cbn zeta in E.
    assert (K : held (running M w t) (at_peer a0 (fun _ => idle_slot) (slots m))).
    { apply at_peer_other; [congruence|cbn; congruence|exact H]. }
    destruct (hci (s_link s)).
    + destruct (answer a0 (refusal c UNKNOWN_CONNECTION)) as [l0| | |] eqn:Y; try discriminate.
      cbn [bind] in E. injection E as <- <-. apply answer_log in Y as (v & _ & ->). rewrite Z. exists t. auto.
    + injection E as <- <-. exists t. auto.
  - destruct (tick_slots rng e (slots m) (drawn m)) as [[[l0 o0] n0]| | |] eqn:T; try discriminate.
    cbn [bind] in E. injection E as <- <-. cbn [slots]. eapply tick_held; eauto.
  - congruence.
Qed.

Lemma run_held M w : w <> Manager -> a <> EMPTY ->
  (forall s, resting M s = true -> fits M s (start w a)) ->
  forall h m m' l t, stays a h -> run rng m h = Ok (m', l) ->
  held (running M w t) (slots m) ->
  exists u, drive M t (part a w l) = Some u /\ held (running M w u) (slots m').
Proof.
  intros W A F0. induction h as [|[e o] h IH]; intros m m' l t S E H; cbn [run] in E.
  - injection E as <- <-. exists t. auto.
  - destruct (step rng e m o) as [[m1 l1]| | |] eqn:X; try discriminate. cbn [bind] in E.
    destruct (run rng m1 h) as [[m2 l2]| | |] eqn:Y; try discriminate. cbn [bind] in E. injection E as <- <-.
    destruct (S e o (or_introl eq_refl)) as (S1 & S2 & S3).
    destruct (step_held M w e m o m1 l1 t W A F0 S1 S2 S3 X H) as (u & U & V).
    destruct (IH m1 m2 l2 u) as (u2 & U2 & V2); auto.
    { intros e0 o0 I0. apply (S e0 o0). right. exact I0. }
    exists u2. rewrite part_app, drive_app, U. auto.
Qed.

(** Nothing waits in a free slot. *)
Definition clean (l : list slot) : Prop :=
  Forall (fun s => peer (s_link s) = EMPTY -> hci (s_link s) = None /\ queue (s_link s) = [] /\ s_procs s = None) l.

(** Every procedure of a link obeys the automata that its tree fits, from the moment the link is
    added. *)
Theorem session M w e m h m' l s : w <> Manager -> a <> EMPTY ->
  (forall s, resting M s = true -> fits M s (start w a)) ->
  find_peer a (slots m) = None -> clean (slots m) -> stays a h ->
  run rng m ((e, AddLink a) :: h) = Ok (m', l) ->
  resting M s = true -> obeys M s (part a w l).
Proof.
  intros W A F0 N CL S E R. split; [exact R|]. cbn [run] in E.
  destruct (step rng e m (AddLink a)) as [[m1 l1]| | |] eqn:X; try discriminate. cbn [bind] in E.
  destruct (run rng m1 h) as [[m2 l2]| | |] eqn:Y; try discriminate. cbn [bind] in E. injection E as <- <-.
  cbn [step] in X. destruct (find_peer EMPTY (slots m)) as [x|] eqn:Z; [|discriminate]. injection X as <- <-.
  cbn [app].
  destruct (run_held M w W A F0 h _ m2 l2 s S Y) as (u & U & HU); [|exists u; split; [exact U|]; destruct HU as (? & ? & ? & _ & _ & (_ & HU & _) & _); exact HU].
  apply find_peer_none in N. cbn [slots]. clear -Z N CL W F0 R.
  revert Z N CL. generalize (slots m). induction l as [|y l IH]; cbn [find_peer at_peer]; [discriminate|].
  intros Z N CL. apply Forall_cons_iff in N as [N1 N2]. apply Forall_cons_iff in CL as [C1 C2].
  destruct (peer (s_link y) =? EMPTY) eqn:Q.
  - apply N.eqb_eq in Q. exists [], (Slot (Link a (hci (s_link y)) (queue (s_link y))) (Some (starts a))), l.
    split; [reflexivity|]. split; [reflexivity|]. split; [|split; [constructor|exact N2]]. split; [|split].
    + intros c X. cbn in X. rewrite (proj1 (C1 Q)) in X. discriminate.
    + pose proof (F0 s R) as Z0. destruct w; try congruence; apply Z0.
    + exists (starts a). split; [reflexivity|]. split.
      * cbn. repeat constructor; cbn; intuition discriminate.
      * intros p I. unfold starts in I. apply in_map_iff in I as (v & V & _). injection V as <- <-. apply F0. exact R.
  - apply held_cons; auto.
Qed.

End Random.
