(** Two idle LE controllers keep their link. *)
From Coq Require Import Sorted.
From Verif Require Import Prelude Table LeData LeDataSpec LeDataProofs LeDataMore LeDataWatch.
From Verif Require Iso.
Open Scope N_scope.

Definition half : N := 1500000.
Definition gap : N := 499000.

Definition check_by (s : state) (k z : N) : Prop := exists u, In u (queue s) /\ todo u = CheckLink k /\ due u <= z.
Definition job_at (s : state) (f : frame) (P : N -> Prop) : Prop := exists u, In u (queue s) /\ todo u = Say (Sent f) /\ P (due u).

(** The link of [s] is supervised: a check is due soon, or a ping is on its way *)
Definition lively (k a b : N) (s s2 : state) (now : N) : Prop :=
  exists last, links s = [(k, Link a b last)] /\ last <= now /\
   (check_by s k (last + half) \/
    exists p, last + half < p /\ p <= last + half + gap /\ p <= now /\ check_by s k (last + kTimeout) /\
      (job_at s (Frame a b PingRequest) (fun d => d = p) \/ job_at s2 (Frame b a PingResponse) (fun d => d <= p + gap))).
Definition clean (a b ticked : N) (s : state) (now : N) : Prop :=
  forall u, In u (queue s) -> ticked <= due u /\
    match todo u with
    | Say (Sent f) => source f = a /\ destination f = b /\ (forall r, about f <> Bye r) /\ due u <= now
    | _ => True
    end.

Lemma clean_later : forall a b t s now now', now <= now' -> clean a b t s now -> clean a b t s now'.
Proof. intros a b t s now now' L C u I. destruct (C u I) as (A & B). split; auto. destruct (todo u) as [[]|]; auto. destruct B as (? & ? & ? & ?). repeat split; auto. lia. Qed.
Lemma lively_later : forall k a b s s2 now now', now <= now' -> lively k a b s s2 now -> lively k a b s s2 now'.
Proof. intros k a b s s2 now now' L (l & A & B & [C|(p & C1 & C2 & C3 & C4)]); exists l; split; auto; split; try lia; auto. right. exists p. repeat split; try tauto. lia. Qed.

(** At no tick the link has expired *)
Lemma bound : forall k a b s s2 now now' t t2 last, lively k a b s s2 now -> clean a b t s now -> clean b a t2 s2 now ->
  now' <= t + gap -> now' <= t2 + gap -> links s = [(k, Link a b last)] -> now' <= last + kTimeout.
Proof.
  intros k a b s s2 now now' t t2 last (l & E & B & H) C C2 L1 L2 E'. rewrite E in E'. injection E' as <-. change kTimeout with 3000000. unfold half, gap in *.
  destruct H as [(u & I & _ & D)|(p & P1 & P2 & P3 & _ & [(u & I & _ & D)|(u & I & _ & D)])].
  - destruct (C u I). lia.
  - destruct (C u I). lia.
  - destruct (C2 u I). lia.
Qed.

(** * The moves of one side *)

Definition ping_or_check (k a b now : N) (u : task) : Prop :=
  now <= due u /\ (todo u = CheckLink k \/ todo u = Say (Sent (Frame a b PingRequest)) /\ due u = now).

Lemma run_idle : forall e k a b last now l s s' x, run_tasks e now l s = (s', x) -> links s = [(k, Link a b last)] -> now <= last + kTimeout ->
  links s' = links s /\ grows s s' /\ x = says l /\ (forall u, In u (queue s') -> In u (queue s) \/ ping_or_check k a b now u) /\
  ((exists t, In t l /\ todo t = CheckLink k) ->
    if last + half <? now then job_at s' (Frame a b PingRequest) (fun d => d = now) /\ check_by s' k (last + kTimeout) else check_by s' k (last + half)).
Proof.
  intros e k a b last now. induction l as [|t l IH]; cbn [run_tasks]; intros s s' x H LK NX.
  - injection H as <- <-. repeat split; auto; [intros u; auto|]. intros (t & [] & _).
  - rewrite says_cons. destruct (todo t) as [o|h] eqn:TD.
    + destruct (run_tasks e now l s) as [s1 o1] eqn:E. injection H as <- <-. destruct (IH _ _ _ E LK NX) as (A & B & C & D & F). repeat split; auto; [now rewrite C|].
      intros (u & [<-|I] & U); [congruence|]. apply F. eauto.
    + destruct (run_tasks e now l (check_link e now h s)) as [s1 o1] eqn:E. injection H as <- <-.
      assert (CK : links (check_link e now h s) = links s /\ grows s (check_link e now h s) /\ (forall u, In u (queue (check_link e now h s)) -> In u (queue s) \/ ping_or_check k a b now u) /\
        (h = k -> if last + half <? now then job_at (check_link e now h s) (Frame a b PingRequest) (fun d => d = now) /\ check_by (check_link e now h s) k (last + kTimeout) else check_by (check_link e now h s) k (last + half))).
      { unfold check_link. rewrite LK. cbn [lookup]. destruct (N.eqb_spec k h) as [<-|NE]; [|repeat split; auto; [intros u; auto|intros ->; easy]].
        cbn [last_heard own peer]. destruct (N.ltb_spec (last + kTimeout) now); [lia|]. change (kTimeout / 2) with half.
        assert (W : forall x, whole_ms x <= x). { intros y. unfold whole_ms. rewrite N.mul_comm. apply N.mul_div_le. lia. }
        destruct (N.ltb_spec (last + half) now) as [X|X].
        - repeat split; auto.
          + intros u I. now repeat apply in_schedule.
          + intros u I. cbn [transmit schedule queue] in I. apply in_insert in I. destruct I as [->|I]; [right; split; cbn; [lia|auto]|]. apply in_insert in I. destruct I as [->|I]; auto. right. split; cbn; [lia|auto].
          + exists (Task now (next_id s) (Say (Sent (Frame a b PingRequest)))). split; [|auto]. apply in_schedule. cbn [transmit schedule queue]. apply in_insert. now left.
          + eexists. split; [cbn [schedule queue]; apply in_insert; left; reflexivity|]. cbn [todo due]. split; auto. pose proof (W (last + kTimeout - now)). lia.
        - repeat split; auto.
          + intros u I. now apply in_schedule.
          + intros u I. cbn [schedule queue] in I. apply in_insert in I. destruct I as [->|I]; auto. right. split; cbn; [lia|auto].
          + intros _. eexists. split; [cbn [schedule queue]; apply in_insert; left; reflexivity|]. cbn [todo due]. split; auto. pose proof (W (last + half - now)). lia. }
      destruct CK as (C1 & C2 & C3 & C4). rewrite <- C1 in LK. destruct (IH _ _ _ E LK NX) as (A & B & C & D & F). repeat split; auto.
      * congruence.
      * intros u I. apply B, C2, I.
      * intros u I. destruct (D u I) as [I'|I']; auto.
      * intros (u & [<-|I] & U); [|apply F; eauto]. assert (h = k) by congruence. subst h. specialize (C4 eq_refl). destruct (last + half <? now).
        -- destruct C4 as ((v & V1 & V2) & w & W1 & W2). split; [exists v|exists w]; auto.
        -- destruct C4 as (w & W1 & W2). exists w. auto.
Qed.

(** Packets of the other side *)
Lemma link_of_own : forall pick k a b last s, links s = [(k, Link a b last)] -> link_of pick a b s = Some k.
Proof. intros pick k a b last s E. unfold link_of. rewrite E. cbn [filter snd peer own]. rewrite !N.eqb_refl. cbn. now destruct (Nat.modulo pick 1) as [|[]]. Qed.

Definition frames_ok (a b : N) (l : list output) : Prop := forall f, In (Sent f) l -> source f = a /\ destination f = b /\ forall r, about f <> Bye r.
Definition has_frame (l : list output) : bool := existsb (fun o => match o with Sent _ => true | _ => false end) l.

Lemma put_single : forall (C : Type) k (c d : C), put [(k, c)] k d = [(k, d)].
Proof. intros. rewrite put_cons, N.eqb_refl. reflexivity. Qed.
Lemma receive_one : forall e now f k a b last s, links s = [(k, Link a b last)] -> source f = b -> destination f = a -> (forall r, about f <> Bye r) ->
  let s' := fst (receive e now f s) in links s' = [(k, Link a b now)] /\ grows s s' /\
  (forall u, In u (queue s') -> In u (queue s) \/ (todo u = Say (Sent (Frame a b PingResponse)) /\ due u = now)) /\
  (about f = PingRequest -> job_at s' (Frame a b PingResponse) (fun d => d = now)).
Proof.
  intros e now f k a b last s E SF DF NB. unfold receive. rewrite SF, DF, (link_of_own _ k a b last s E), E. cbn [lookup]. rewrite N.eqb_refl. cbv zeta. cbn [own peer]. rewrite put_single.
  set (s1 := with_links [(k, Link a b now)] s). assert (A1 : links s1 = [(k, Link a b now)] /\ grows s s1 /\ (forall u, In u (queue s1) -> In u (queue s) \/ todo u = Say (Sent (Frame a b PingResponse)) /\ due u = now)).
  { repeat split; auto. intros u; auto. }
  destruct (about f); cbn [fst]; try (destruct A1 as (A1 & A2 & A3); repeat split; auto; discriminate).
  - repeat split; auto; [intros u I; now apply in_schedule|intros u I|intros _].
    + cbn [transmit schedule queue] in I. apply in_insert in I. destruct I as [->|I]; auto.
    + eexists. split; [cbn [transmit schedule queue]; apply in_insert; left; reflexivity|auto].
  - now destruct (NB reason).
Qed.
Definition carry (j : N) (l : list output) : list acl_packet :=
  flat_map (fun o => match o with Sent (Frame _ _ (Acl b bc d)) => [AclPacket j (if b =? 0 then 2 else b) bc d] | _ => [] end) l.
Lemma acl_out_pieces : forall fuel h q n bd d, acl_out (pieces fuel h q n bd d) = [].
Proof. induction fuel as [|fuel IH]; intros; cbn [pieces]; auto. unfold acl_out in *. cbn [flat_map app]. destruct (skipn _ d); auto. Qed.
Lemma receive_acl_out : forall e now f k a b last s, links s = [(k, Link a b last)] -> source f = b -> destination f = a ->
  acl_out (snd (receive e now f s)) = carry k [Sent f].
Proof.
  intros e now f k a b last s E SF DF. unfold receive. rewrite SF, DF, (link_of_own _ k a b last s E). cbv zeta. destruct f as [x y c]. cbn [about carry flat_map app]. destruct c; cbn [snd]; auto.
  unfold incoming_iso. destruct (Iso.find_cis _ _ _); auto. apply acl_out_pieces.
Qed.
Lemma acl_out_app : forall l m, acl_out (l ++ m) = acl_out l ++ acl_out m.
Proof. intros. apply flat_map_app. Qed.
Lemma deliver_all : forall e now k a b l last s s' y, links s = [(k, Link a b last)] -> frames_ok b a l -> deliver e now l s = (s', y) ->
  links s' = [(k, Link a b (if has_frame l then now else last))] /\ grows s s' /\
  (forall u, In u (queue s') -> In u (queue s) \/ (todo u = Say (Sent (Frame a b PingResponse)) /\ due u = now)) /\
  (In (Sent (Frame b a PingRequest)) l -> job_at s' (Frame a b PingResponse) (fun d => d = now)) /\
  (inv now s -> inv now s' /\ filter acl_or_credit (waiting s') = filter acl_or_credit (waiting s)) /\ acl_out y = carry k l.
Proof.
  intros e now k a b. induction l as [|o l IH]; intros last s s' y E F D.
  - injection D as <- <-. repeat match goal with |- _ /\ _ => split end; auto; [intros u; auto|intros []].
  - assert (F' : frames_ok b a l) by (intros f I; apply F; now right).
    destruct o as [f| | | |]; try (destruct (IH last s s' y E F' D) as (A & B & C & D1 & D2 & D3); cbn [has_frame existsb orb]; repeat match goal with |- _ /\ _ => split end; auto; intros [X|X]; [discriminate|auto]).
    destruct (F f (or_introl eq_refl)) as (SF & DF & NB). destruct (receive_one e now f k a b last s E SF DF NB) as (A & B & C & D1). cbn [deliver has_frame existsb orb] in *.
    pose proof (receive_acl_out e now f k a b last s E SF DF) as RO. destruct (receive e now f s) as [s1 x1] eqn:R. cbn [fst snd] in *. destruct (deliver e now l s1) as [s2 y1] eqn:DD. injection D as <- <-.
    destruct (IH now s1 s2 y1 A F' DD) as (A2 & B2 & C2 & D2 & E2 & G2). repeat match goal with |- _ /\ _ => split end.
    + rewrite A2. now destruct (has_frame l).
    + intros u I. apply B2, B, I.
    + intros u I. destruct (C2 u I) as [I'|I']; auto.
    + intros [X|X]; auto. injection X as ->. destruct (D1 eq_refl) as (u & U1 & U2). exists u. auto.
    + intros IV. destruct (receive_adds _ _ _ _ _ _ R) as (m & S & AD). destruct (AD IV) as (IV1 & W1). destruct (E2 IV1) as (IV2 & W2). split; auto. rewrite W2, W1, filter_app. destruct (services_filter _ S) as (-> & _). apply app_nil_r.
    + rewrite acl_out_app, RO, G2. change (Sent f :: l) with ([Sent f] ++ l). unfold carry. now rewrite flat_map_app.
Qed.

Lemma ready_split : forall now q u, In u q -> In u (ready now q) \/ In u (later now q).
Proof. intros now q u I. rewrite <- (ready_later now q) in I. now apply in_app_or in I. Qed.
Lemma says_in : forall q o, In o (says q) <-> exists u, In u q /\ todo u = Say o.
Proof.
  intros q o. unfold says. rewrite in_flat_map. split.
  - intros (u & I & J). exists u. split; auto. destruct (todo u); [destruct J as [->|[]]; auto|destruct J].
  - intros (u & I & J). exists u. split; auto. rewrite J. now left.
Qed.

(** What a step of one side does to it *)
Record moved (k a b : N) (s s' : state) (now' : N) (o : op) (x : list output) : Prop := Moved {
  mv_links : links s' = links s;
  mv_frames : frames_ok a b x;
  mv_new : forall u, In u (queue s') -> In u (queue s) \/ ping_or_check k a b now' u \/ (due u = now' /\ match todo u with Say (Sent f) => source f = a /\ destination f = b /\ forall r, about f <> Bye r | Say _ => True | CheckLink _ => False end);
  mv_keep : o <> Tick -> grows s s';
  mv_tick : o = Tick -> (forall u, In u (queue s) -> In u (queue s') \/ (due u <= now' /\ match todo u with Say y => In y x | CheckLink _ => True end)) /\
    (forall u, In u (queue s') -> now' <= due u) /\
    (forall last, links s = [(k, Link a b last)] -> (exists u, In u (queue s) /\ todo u = CheckLink k /\ due u <= now' /\ ~ In u (queue s')) ->
      if last + half <? now' then job_at s' (Frame a b PingRequest) (fun d => d = now') /\ check_by s' k (last + kTimeout) else check_by s' k (last + half)) }.

Lemma in_dec_task : forall u (l : list task), In u l \/ ~ In u l.
Proof. intros u l. destruct (in_dec (fun x y : task => ltac:(repeat decide equality)) u l); auto. Qed.

Lemma own_move : forall e k a b last s s' now t now' o x, idle o = true -> step e now' s o = Some (s', x) -> links s = [(k, Link a b last)] ->
  clean a b t s now -> inv now s -> now <= now' -> now' <= last + kTimeout -> moved k a b s s' now' o x.
Proof.
  intros e k a b last s s' now t now' o x ID E LK C IV LE NX. destruct o; try discriminate; cbn [step] in E.
  - destruct (handle_acl now' p s) as [s1|] eqn:H; [|discriminate]. injection E as <- <-. pose proof (handle_acl_frame _ _ _ _ H) as (EL & G). constructor; auto; try discriminate; [intros f []|].
    intros u I. unfold handle_acl in H. destruct (_ =? _); [|discriminate]. injection H as <-. cbn [schedule queue] in I. apply in_insert in I. destruct I as [->|I]; [right; right; cbn; auto|].
    rewrite LK in I. cbn [lookup] in I. destruct (k =? a_handle p); auto. cbn [transmit schedule queue] in I. apply in_insert in I. destruct I as [->|I]; auto. right. right. cbn. repeat split; auto. discriminate.
  - destruct (handle_iso e now' p s) as [s1|] eqn:H; [|discriminate]. injection E as <- <-. pose proof (handle_iso_frame _ _ _ _ _ H) as (EL & G). constructor; auto; try discriminate; [intros f []|].
    intros u I. unfold handle_iso in H. cbv zeta in H. set (s0 := schedule now' (Say (Completed (i_handle p))) s) in *.
    assert (I0 : forall u, In u (queue s0) -> In u (queue s) \/ ping_or_check k a b now' u \/ (due u = now' /\ match todo u with Say (Sent f) => source f = a /\ destination f = b /\ forall r, about f <> Bye r | Say _ => True | CheckLink _ => False end)).
    { intros v J. cbn [s0 schedule queue] in J. apply in_insert in J. destruct J as [->|J]; auto. right. right. cbn. auto. }
    destruct (_ <? _); [discriminate|]. destruct (_ && _); [discriminate|]. destruct (cis_information _ _) as [[[[c g] i] mx]|]; [|injection H as <-; auto].
    change (links s0) with (links s) in H. rewrite LK in H. cbn [lookup] in H. destruct (k =? c); [|injection H as <-; auto].
    destruct (parse_load _ _) as [[q d]|]; [|discriminate].
    assert (Q : queue (if opens (i_boundary p) then with_sdu [] s0 else s0) = queue s0) by (now destruct (opens _)).
    destruct (closes _); [|injection H as <-; cbn [with_sdu queue] in I; rewrite Q in I; auto]. destruct (_ <? _); injection H as <-; cbn [with_sdu transmit schedule queue] in I; [rewrite Q in I; auto|].
    apply in_insert in I. destruct I as [->|I]; [|rewrite Q in I; auto]. right. right. cbn. repeat split; auto. discriminate.
  - injection E as E. unfold tick in E. destruct (run_idle e k a b last now' (ready now' (queue s)) (with_queue (later now' (queue s)) s) s' x E LK NX) as (EL & G & EX & NEW & RAN).
    pose proof (later_due now' (queue s) (inv_sorted _ _ IV)) as LD. rewrite Forall_forall in LD.
    constructor; auto.
    + intros f I. rewrite EX in I. apply says_in in I as (u & I & U). assert (IQ : In u (queue s)) by (rewrite <- (ready_later now' (queue s)); apply in_or_app; now left).
      destruct (C u IQ) as (_ & D). rewrite U in D. tauto.
    + intros u I. destruct (NEW u I) as [J|J]; auto. left. cbn [with_queue queue] in J. rewrite <- (ready_later now' (queue s)). apply in_or_app. now right.
    + intros N. now destruct N.
    + intros _. split; [|split].
      * intros u I. destruct (ready_split now' _ u I) as [J|J]; [right|left; now apply G]. split; [eapply ready_due, J|]. destruct (todo u) as [y|] eqn:TD; auto. rewrite EX. apply says_in. eauto.
      * intros u I. destruct (NEW u I) as [J|(J & _)]; auto. cbn [with_queue queue] in J. apply N.lt_le_incl. now apply LD.
      * intros l' EL' (u & I & U & DU & NI). rewrite EL' in LK. injection LK as ->. apply RAN. exists u. split; auto. destruct (ready_split now' _ u I) as [J|J]; auto. exfalso. apply NI, G. exact J.
Qed.

Lemma in_has_frame : forall f l, In (Sent f) l -> has_frame l = true.
Proof. intros f l I. apply existsb_exists. exists (Sent f). auto. Qed.

(** One move keeps both links supervised *)
Lemma move : forall e e' k a j b s s2 s' s2' y now now' t t2 o x, idle o = true -> step e now' s o = Some (s', x) -> deliver e' now' x s2 = (s2', y) ->
  lively k a b s s2 now -> lively j b a s2 s now -> clean a b t s now -> clean b a t2 s2 now -> inv now s -> inv now s2 ->
  t <= now -> t2 <= now -> now <= now' -> now' <= t + gap -> now' <= t2 + gap ->
  let t' := if is_tick o then now' else t in
  lively k a b s' s2' now' /\ lively j b a s2' s' now' /\ clean a b t' s' now' /\ clean b a t2 s2' now' /\ inv now' s' /\ inv now' s2' /\
  acl_out y = carry j x /\ filter acl_or_credit (waiting s2') = filter acl_or_credit (waiting s2).
Proof.
  intros e e' k a j b s s2 s' s2' y now now' t t2 o x ID E DV LA LB CA CB IA IB T1 T2 LE G1 G2. cbv zeta.
  destruct LA as (last & LK & LN & AL). pose proof (bound k a b s s2 now now' t t2 last (ex_intro _ last (conj LK (conj LN AL))) CA CB G1 G2 LK) as NX.
  pose proof (own_move e k a b last s s' now t now' o x ID E LK CA IA LE NX) as [ML MF MN MK MT].
  destruct LB as (last2 & LK2 & LN2 & BL). destruct (deliver_all e' now' j b a x last2 s2 s2' y LK2 MF DV) as (DL & DG & DN & DP & DI & DO). specialize (DI (inv_later now now' s2 LE IB)).
  assert (TICK : o = Tick \/ o <> Tick) by (destruct o; auto; right; discriminate).
  assert (INVA : inv now' s').
  { destruct TICK as [->|NT]; [cbn [step] in E; injection E as E; apply (tick_effect _ _ _ _ _ E); now apply (inv_later now)|]. apply (inv_later now now' s LE) in IA. apply (step_acl _ _ _ _ _ _ E IA). }
  destruct DI as (INVB & DW).
  repeat match goal with |- _ /\ _ => split end; auto.
  - (* the side that moved *)
    exists last. rewrite ML. split; auto. split; [lia|]. destruct AL as [(u & U1 & U2 & U3)|(p & P1 & P2 & P3 & (v & V1 & V2 & V3) & ST)].
    + destruct (in_dec_task u (queue s')) as [J|J]; [left; exists u; auto|]. destruct TICK as [->|NT]; [|exfalso; apply J, MK; auto]. destruct (MT eq_refl) as (M1 & M2 & M3).
      assert (DU : due u <= now') by (destruct (M1 u U1) as [K|(K & _)]; [easy|exact K]). specialize (M3 last LK). destruct (N.ltb_spec (last + half) now') as [X|X].
      * right. destruct M3 as (M3 & M4); [eauto 6|]. exists now'. split; auto. split; [destruct (CA u U1); lia|]. split; [lia|]. split; [exact M4|left; exact M3].
      * left. apply M3. eauto 6.
    + right. assert (CHK : check_by s' k (last + kTimeout)).
      { destruct (in_dec_task v (queue s')) as [J|J]; [exists v; auto|]. destruct TICK as [->|NT]; [|exfalso; apply J, MK; auto]. destruct (MT eq_refl) as (M1 & M2 & M3).
        assert (DUV : due v <= now') by (destruct (M1 v V1) as [K|(K & _)]; [easy|exact K]). specialize (M3 last LK). destruct (N.ltb_spec (last + half) now') as [X|X]; [apply M3; eauto 6|lia]. }
      exists p. split; auto. split; auto. split; [lia|]. split; auto. destruct ST as [(u & U1 & U2 & U3)|(u & U1 & U2 & U3)]; [|right; exists u; auto].
      destruct (in_dec_task u (queue s')) as [J|J]; [left; exists u; auto|]. destruct TICK as [->|NT]; [|exfalso; apply J, MK; auto]. destruct (MT eq_refl) as (M1 & M2 & M3).
      destruct (M1 u U1) as [K|(K & K2)]; [easy|]. rewrite U2 in K2. right. destruct (DP K2) as (w & W1 & W2 & W3). exists w. split; auto. split; auto. rewrite W3. destruct (CA u U1). lia.
  - (* the other side *)
    destruct (has_frame x) eqn:HF.
    + exists now'. split; auto. split; [lia|]. left. destruct BL as [(u & U1 & U2 & U3)|(p & P1 & P2 & P3 & (v & V1 & V2 & V3) & _)]; [exists u|exists v]; (split; [auto|split; auto]); unfold half in *; change kTimeout with 3000000 in *; lia.
    + exists last2. split; auto. split; [lia|]. destruct BL as [(u & U1 & U2 & U3)|(p & P1 & P2 & P3 & (v & V1 & V2 & V3) & ST)]; [left; exists u; auto|]. right. exists p. split; auto. split; auto. split; [lia|]. split; [exists v; auto|].
      destruct ST as [(u & U1 & U2 & U3)|(u & U1 & U2 & U3)]; [left; exists u; auto|]. right. exists u. split; auto.
      destruct TICK as [->|NT]; [|apply MK; auto]. destruct (MT eq_refl) as (M1 & _ & _). destruct (M1 u U1) as [K|(K & K2)]; auto. rewrite U2 in K2. apply in_has_frame in K2. congruence.
  - intros u I. split.
    + destruct TICK as [->|NT]; [cbn [is_tick]; now apply (MT eq_refl)|]. assert (F : is_tick o = false) by (destruct o; auto; easy). rewrite F. destruct (MN u I) as [J|[(J & _)|(J & _)]]; [now apply CA|lia|lia].
    + destruct (MN u I) as [J|[(J & J2)|(J & J2)]].
      * destruct (CA u J) as (_ & D). destruct (todo u) as [[]|]; auto. destruct D as (? & ? & ? & ?). repeat split; auto. lia.
      * destruct J2 as [->|(-> & ->)]; auto. cbn. repeat split; auto; [discriminate|lia].
      * destruct (todo u) as [[]|]; auto. destruct J2 as (? & ? & ?). repeat split; auto. lia.
  - intros u I. destruct (DN u I) as [J|(J1 & J2)].
    + destruct (CB u J) as (? & D). split; auto. destruct (todo u) as [[]|]; auto. destruct D as (? & ? & ? & ?). repeat split; auto. lia.
    + rewrite J1, J2. cbn. repeat split; auto; try discriminate; lia.
Qed.

Lemma link_up_state : forall e now k a b, link_up e now k a b initial = State [(k, Link a b now)] [] [Task (now + 1500000) 1 (CheckLink k)] 2.
Proof.
  intros. unfold link_up. cbn [lookup links initial with_links]. unfold check_link. cbn [lookup links put with_links]. change (put [] k (Link a b now)) with [(k, Link a b now)]. cbn [lookup]. rewrite N.eqb_refl. cbn [last_heard].
  destruct (N.ltb_spec (now + kTimeout) now); [lia|]. destruct (N.ltb_spec (now + kTimeout / 2) now); [lia|]. replace (now + kTimeout / 2 - now) with 1500000 by (change (kTimeout / 2) with 1500000; lia). reflexivity.
Qed.
Lemma start_ok : forall e now k a b s2, let s := link_up e now k a b initial in lively k a b s s2 now /\ clean a b now s now /\ inv now s.
Proof.
  intros e now k a b s2. cbv zeta. rewrite link_up_state. split; [|split].
  - exists now. split; auto. split; [lia|]. left. eexists. split; [left; reflexivity|]. cbn. split; auto. unfold half. lia.
  - intros u [<-|[]]. cbn. split; auto. lia.
  - constructor; cbn; repeat constructor; lia.
Qed.

(** The packets on their way *)
Lemma carry_app : forall j l m, carry j (l ++ m) = carry j l ++ carry j m.
Proof. intros. apply flat_map_app. Qed.
Lemma carry_filter : forall j l, carry j (filter acl_or_credit l) = carry j l.
Proof.
  intros j. induction l as [|o l IH]; auto. cbn [filter]. change (o :: l) with ([o] ++ l). rewrite carry_app. destruct (acl_or_credit o) eqn:A.
  - change (o :: filter acl_or_credit l) with ([o] ++ filter acl_or_credit l). now rewrite carry_app, IH.
  - rewrite IH. destruct o as [[x y []]| | | |]; try discriminate; reflexivity.
Qed.
Lemma carry_asked : forall j k a b last e now s o x, links s = [(k, Link a b last)] -> idle o = true ->
  carry j (asked (Entry now e (open_links s) o x)) = map (arrives j) (on_link k (acl_given o)).
Proof.
  intros j k a b last e now s o x L ID. unfold asked, open_links. rewrite L. cbn [what known map fst snd lookup own peer]. destruct o; try discriminate; auto. cbn [acl_given on_link filter]. rewrite (N.eqb_sym (a_handle p)).
  destruct (k =? a_handle p); reflexivity.
Qed.
Lemma on_link_app : forall k l m, on_link k (l ++ m) = on_link k l ++ on_link k m.
Proof. intros. apply filter_app. Qed.

Definition flows (k j : N) (s : state) (given got : list acl_packet) : Prop := map (arrives j) (on_link k given) = got ++ carry j (waiting s).

Lemma flows_move : forall k a j b last e now s o s' x given got y, links s = [(k, Link a b last)] -> idle o = true -> inv now s -> step e now s o = Some (s', x) ->
  acl_out y = carry j x -> flows k j s given got -> flows k j s' (given ++ acl_given o) (got ++ acl_out y).
Proof.
  intros k a j b last e now s o s' x given got y L ID IV E Y F. unfold flows in *. rewrite on_link_app, map_app, F, Y. destruct (step_acl _ _ _ _ _ _ E IV) as (_ & W).
  apply (f_equal (carry j)) in W. rewrite carry_app, !carry_filter, (carry_asked j k a b last), carry_app in W by auto. now rewrite <- !app_assoc, W.
Qed.
Lemma flows_other : forall k j s s' given got, filter acl_or_credit (waiting s') = filter acl_or_credit (waiting s) -> flows k j s given got -> flows k j s' given got.
Proof. intros k j s s' given got W F. unfold flows in *. now rewrite F, <- (carry_filter j (waiting s)), <- W, carry_filter. Qed.

Lemma joint_inv : forall k a j b now tl tr n, joint k a j b now tl tr n ->
  (lively k a b (left n) (right n) now /\ lively j b a (right n) (left n) now /\ clean a b tl (left n) now /\ clean b a tr (right n) now /\
   inv now (left n) /\ inv now (right n) /\ tl <= now /\ tr <= now) /\
  flows k j (left n) (from_left n) (at_right n) /\ flows j k (right n) (from_right n) (at_left n).
Proof.
  intros k a j b now tl tr n H. induction H as [now e e'|now now' tl tr n e e' o s x s2 y H IH L G1 G2 ID E DV|now now' tl tr n e e' o s x s2 y H IH L G1 G2 ID E DV]; cbn [left right from_left at_right from_right at_left].
  - destruct (start_ok e now k a b (link_up e' now j b a initial)) as (A1 & A2 & A3). destruct (start_ok e' now j b a (link_up e now k a b initial)) as (B1 & B2 & B3).
    split; [repeat match goal with |- _ /\ _ => split end; auto; lia|]. rewrite !link_up_state. now split.
  - destruct IH as ((A & B & C & D & I1 & I2 & T1 & T2) & F1 & F2). destruct (move e e' k a j b _ _ _ _ _ now now' tl tr o x ID E DV A B C D I1 I2 T1 T2 L G1 G2) as (A' & B' & C' & D' & I1' & I2' & Y & W).
    split; [repeat match goal with |- _ /\ _ => split end; auto; [destruct (is_tick o); lia|lia]|]. destruct A as (last & LK & _). split; [|now apply (flows_other _ _ (right n))].
    eapply (flows_move _ _ _ _ last e now'); eauto. now apply (inv_later now).
  - destruct IH as ((A & B & C & D & I1 & I2 & T1 & T2) & F1 & F2). destruct (move e e' j b k a _ _ _ _ _ now now' tr tl o x ID E DV B A D C I2 I1 T2 T1 L G2 G1) as (A' & B' & C' & D' & I1' & I2' & Y & W).
    split; [repeat match goal with |- _ /\ _ => split end; auto; [lia|destruct (is_tick o); lia]|]. destruct B as (last & LK & _). split; [now apply (flows_other _ _ (left n))|].
    eapply (flows_move _ _ _ _ last e now'); eauto. now apply (inv_later now).
Qed.

(** The links stay *)
Theorem kept : forall k a j b now tl tr n, joint k a j b now tl tr n -> open_links (left n) = [(k, (a, b))] /\ open_links (right n) = [(j, (b, a))].
Proof.
  intros k a j b now tl tr n H. destruct (joint_inv _ _ _ _ _ _ _ _ H) as (((l & E & _) & (l' & E' & _) & _) & _). unfold open_links. now rewrite E, E'.
Qed.

(** The data comes through *)
Theorem through : forall k a j b now tl tr n, joint k a j b now tl tr n ->
  (exists rest, map (arrives j) (on_link k (from_left n)) = at_right n ++ rest) /\
  (exists rest, map (arrives k) (on_link j (from_right n)) = at_left n ++ rest).
Proof. intros k a j b now tl tr n H. destruct (joint_inv _ _ _ _ _ _ _ _ H) as (_ & F1 & F2). split; eexists; [exact F1|exact F2]. Qed.
Theorem all_through : forall k a j b now tl tr n e e' now' s x s2 y, joint k a j b now tl tr n -> now <= now' -> now' <= tl + 499000 -> now' <= tr + 499000 ->
  step e now' (left n) Tick = Some (s, x) -> deliver e' now' x (right n) = (s2, y) -> at_right n ++ acl_out y = map (arrives j) (on_link k (from_left n)).
Proof.
  intros k a j b now tl tr n e e' now' s x s2 y H L G1 G2 E DV. pose proof (joint_left _ _ _ _ _ _ _ _ _ e e' Tick _ _ _ _ H L G1 G2 eq_refl E DV) as H'.
  destruct (joint_inv _ _ _ _ _ _ _ _ H') as (_ & F & _). cbn [left from_left at_right acl_given] in F. unfold flows in F. rewrite app_nil_r in F. rewrite F.
  destruct (joint_inv _ _ _ _ _ _ _ _ H) as ((_ & _ & _ & _ & IV & _) & _). cbn [step] in E. injection E as E. destruct (tick_effect _ _ _ _ _ E (inv_later _ _ _ L IV)) as (_ & _ & S).
  rewrite <- (carry_filter j (waiting s)). destruct (services_filter _ S) as (-> & _). now rewrite app_nil_r.
Qed.
