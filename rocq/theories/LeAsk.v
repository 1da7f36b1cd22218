(** Proofs about the questions that a host asks about the other end of an LE connection. *)
From Verif Require Import Prelude LeLink LeLinkSpec LeLinkProofs LeLinkMore LeAskSpec.
Open Scope N_scope.

Definition toward (x : side) (s : system) : list pdu := match x with Central => to_cen s | Peripheral => to_per s end.

(** ** One step, seen from the side that acts *)
Lemma view_host s x m c s' st ev : step s (Host x m c) = Some (s', st, ev) ->
  exists ps, do_command m (end_of x s) c = (end_of x s', st, ps, ev) /\ end_of (other x) s' = end_of (other x) s /\
    toward x s' = toward x s /\ toward (other x) s' = toward (other x) s ++ ps.
Proof.
  intros H. unfold step in H. destruct x.
  - destruct (do_command m (cen s) c) as [[[e' st'] ps] ev'] eqn:D. injection H as <- <- <-. exists ps. cbn. auto.
  - destruct (do_command m (per s) c) as [[[e' st'] ps] ev'] eqn:D. injection H as <- <- <-. exists ps. cbn. auto.
Qed.
Lemma view_deliver s x m s' st ev : step s (Deliver x m) = Some (s', st, ev) ->
  (toward x s = [] /\ s' = s /\ ev = []) \/
  exists p rest ps, toward x s = p :: rest /\ do_receive m (end_of x s) p = Some (end_of x s', ps, ev) /\ end_of (other x) s' = end_of (other x) s /\
    toward x s' = rest /\ toward (other x) s' = toward (other x) s ++ ps.
Proof.
  intros H. unfold step in H. destruct x.
  - destruct (to_cen s) as [|p rest] eqn:T; [injection H as <- <- <-; left; cbn; auto|].
    destruct (do_receive m (cen s) p) as [[[e' ps] ev']|] eqn:D; [|discriminate]. injection H as <- <- <-. right. exists p, rest, ps. cbn. auto.
  - destruct (to_per s) as [|p rest] eqn:T; [injection H as <- <- <-; left; cbn; auto|].
    destruct (do_receive m (per s) p) as [[[e' ps] ev']|] eqn:D; [|discriminate]. injection H as <- <- <-. right. exists p, rest, ps. cbn. auto.
Qed.
Lemma side_eqb_refl x : side_eqb x x = true. Proof. now destruct x. Qed.
Lemma side_eqb_other x : side_eqb x (other x) = false. Proof. now destruct x. Qed.
Lemma other_other x : other (other x) = x. Proof. now destruct x. Qed.
Lemma same_or_other x y : y = x \/ y = other x. Proof. destruct x, y; auto. Qed.

(** ** The answers and questions under way *)
Definition coming (p : pdu) : list event :=
  match p with FeaturesRsp f st => [FeaturesComplete st f] | VersionRsp v sub man => [VersionComplete SUCCESS v man sub] | _ => [] end.
Definition asked (a : about) (p : pdu) : list event :=
  match p with
  | FeaturesReq => [FeaturesComplete SUCCESS (all_features a)]
  | VersionReq => [VersionComplete SUCCESS (version a) (manufacturer a) (subversion a)]
  | _ => []
  end.

Lemma command_asks m e c e' st ps ev a : do_command m e c = (e', st, ps, ev) ->
  flat_map coming ps = [] /\ flat_map (asked a) ps = (if st =? SUCCESS then true_answer a c else []) /\ List.filter answered ev = [] /\
  (up e' = true -> up e = true /\ info e' = info e /\ known_features e' = known_features e) /\ (up e = false -> true_answer a c = [] \/ st <> SUCCESS) /\
  known_features e' = known_features e.
Proof.
  intros H. destruct c; command_cases H; unfold emit; repeat match goal with |- context [List.filter _ (if ?b then _ else _)] => destruct b end;
    repeat match goal with |- context [List.filter _ (match ?b with _ => _ end)] => destruct b end; cbn;
    rewrite ?orb_false_iff, ?negb_true_iff, ?negb_false_iff in *; repeat split; auto; try congruence; intuition (try congruence).
  1-5: match goal with |- context [if ?b then _ else _] => now destruct b end.
  all: right; discriminate.
Qed.
Lemma receive_told_answers m e p e' ps ev a : do_receive m e p = Some (e', ps, ev) ->
  flat_map (asked a) ps = [] /\ (up e = false -> ps = [] /\ ev = [] /\ e' = e) /\
  (m M_LE_META = true -> m M_REMOTE_VERSION = true -> up e = true -> List.filter answered ev = coming p) /\
  (List.filter answered ev = [] \/ List.filter answered ev = coming p) /\
  (up e' = true -> up e = true) /\ info e' = info e /\
  (known_features e' = known_features e \/ exists f, p = FeaturesRsp f SUCCESS /\ known_features e' = Some f).
Proof.
  intros H. destruct (up e) eqn:U.
  2:{ unfold do_receive in H. rewrite U in H. cbn in H. injection H as <- <- <-. cbn. repeat split; auto; congruence. }
  destruct p; receive_cases H; try (rewrite U in *; discriminate); try congruence; unfold emit; repeat match goal with |- context [m ?k] => destruct (m k) eqn:? end;
    repeat match goal with |- context [if ?b then _ else _] => destruct b eqn:? end;
    cbn; repeat split; auto; try congruence.
  all: right; eexists; (split; [|reflexivity]); rewrite ?N.eqb_eq in *; congruence.
Qed.
Lemma receive_replies m e p e' ps ev a : do_receive m e p = Some (e', ps, ev) -> subversion a < 256 -> up e = true -> info e = a -> flat_map coming ps = asked a p.
Proof.
  intros H SM U IA. destruct p; receive_cases H; try (rewrite U in *; discriminate); try congruence; cbn; rewrite ?IA, ?(N.mod_small _ _ SM); auto.
Qed.

(** ** The invariant: [x] asks, [a] is what the other controller was when the link was made *)
Section Ask.
Variables (x : side) (a : about).
Hypothesis small : subversion a < 256.

Record Asking (h : list entry) (s : system) : Prop := {
  as_info : up (end_of (other x) s) = true -> info (end_of (other x) s) = a;
  as_up : up (end_of x s) = true -> up (end_of (other x) s) = true ->
    due x a h = told x h ++ flat_map coming (toward x s) ++ flat_map (asked a) (toward (other x) s);
  as_half : up (end_of x s) = true -> exists rest, due x a h = told x h ++ flat_map coming (toward x s) ++ rest;
  as_down : exists rest, due x a h = told x h ++ rest }.

Lemma asking_step h s o s' st ev : Asking h s -> step s o = Some (s', st, ev) -> listens x (Entry o st ev :: h) -> Asking (Entry o st ev :: h) s'.
Proof.
  intros [AI AU AH AD] H LI. destruct o as [y m c|y m]; destruct (same_or_other x y) as [->| ->].
  - (* the asking host *) destruct (view_host _ _ _ _ _ _ _ H) as (ps & D & O & T1 & T2). destruct (command_asks _ _ _ _ _ _ _ a D) as (C1 & C2 & C3 & C4 & C5 & _).
    constructor; cbn [due told what status_of events on_side]; rewrite ?side_eqb_refl, ?O, ?T1, ?T2, ?C3, ?app_nil_r; cbn [andb].
    + exact AI.
    + intros U1 U2. rewrite flat_map_app, C2, (AU (proj1 (C4 U1)) U2), <- !app_assoc. reflexivity.
    + intros U1. destruct (AH (proj1 (C4 U1))) as (r & ->). eexists. rewrite <- !app_assoc. reflexivity.
    + destruct AD as (r & ->). eexists. rewrite <- !app_assoc. reflexivity.
  - (* the other host *) destruct (view_host _ _ _ _ _ _ _ H) as (ps & D & O & T1 & T2). rewrite other_other in *. destruct (command_asks _ _ _ _ _ _ _ a D) as (C1 & C2 & C3 & C4 & C5 & _).
    constructor; cbn [due told what status_of events on_side]; rewrite ?side_eqb_other, ?O, ?T1, ?T2, ?app_nil_r; cbn [andb]; rewrite ?app_nil_r, ?flat_map_app, ?C1, ?app_nil_r.
    + intros U. destruct (C4 U) as (U' & -> & _). auto.
    + intros U1 U2. apply AU; auto. now apply C4.
    + exact AH.
    + exact AD.
  - (* the asking side receives *) destruct (view_deliver _ _ _ _ _ _ H) as [(T & -> & ->)|(p & rest & ps & T & D & O & T1 & T2)].
    { constructor; cbn [due told what on_side events List.filter]; rewrite ?side_eqb_refl, ?app_nil_r; auto. }
    destruct (up (end_of x s)) eqn:U.
    + destruct (LI _ (or_introl eq_refl)) as (L1 & L2); [apply side_eqb_refl|]. cbn in L1, L2.
      destruct (receive_told_answers _ _ _ _ _ _ a D) as (R1 & R2 & R3 & R4 & R5 & R6 & R7). specialize (R3 L1 L2 U).
      constructor; cbn [due told what status_of events on_side]; rewrite ?side_eqb_refl, ?O, ?T1, ?T2, ?R3, ?app_nil_r, ?flat_map_app, ?R1, ?app_nil_r.
      * exact AI.
      * intros U1 U2. rewrite (AU eq_refl U2), T. cbn [flat_map]. now rewrite <- !app_assoc.
      * intros _. destruct (AH eq_refl) as (r & ->). exists r. rewrite T. cbn [flat_map]. now rewrite <- !app_assoc.
      * destruct (AH eq_refl) as (r & ->). eexists. rewrite T. cbn [flat_map]. rewrite <- !app_assoc. reflexivity.
    + destruct (receive_told_answers _ _ _ _ _ _ a D) as (R1 & R2 & R3 & R4 & R5 & R6 & R7). destruct (R2 U) as (-> & -> & E).
      constructor; cbn [due told what status_of events on_side List.filter]; rewrite ?side_eqb_refl, ?O, ?app_nil_r.
      * exact AI.
      * intros U1. rewrite E in U1. congruence.
      * intros U1. rewrite E in U1. congruence.
      * exact AD.
  - (* the other side receives *) destruct (view_deliver _ _ _ _ _ _ H) as [(T & -> & ->)|(p & rest & ps & T & D & O & T1 & T2)].
    { constructor; cbn [due told what on_side events List.filter]; rewrite ?side_eqb_other, ?app_nil_r; auto. }
    rewrite other_other in *. destruct (receive_told_answers _ _ _ _ _ _ a D) as (R1 & R2 & R3 & R4 & R5 & R6 & R7).
    destruct (up (end_of (other x) s)) eqn:U.
    + pose proof (receive_replies _ _ _ _ _ _ a D small U (AI eq_refl)) as RR.
      constructor; cbn [due told what status_of events on_side]; rewrite ?side_eqb_other, ?O, ?T1, ?T2, ?app_nil_r, ?flat_map_app, ?RR.
      * intros _. rewrite R6. auto.
      * intros U1 U2. rewrite (AU U1 eq_refl), T. cbn [flat_map]. now rewrite <- !app_assoc.
      * intros U1. rewrite (AU U1 eq_refl), T. eexists. cbn [flat_map]. rewrite <- !app_assoc. reflexivity.
      * exact AD.
    + destruct (R2 eq_refl) as (-> & -> & E).
      constructor; cbn [due told what status_of events on_side]; rewrite ?side_eqb_other, ?O, ?T1, ?T2, ?app_nil_r.
      * intros U1. rewrite E in U1. congruence.
      * intros _ U1. rewrite E in U1. congruence.
      * exact AH.
      * exact AD.
Qed.
End Ask.

Lemma listens_tail x e h : listens x (e :: h) -> listens x h.
Proof. intros L e' I. apply L. now right. Qed.
Lemma history_asking c p i lat tmo h s x : history (connected c p i lat tmo) h s -> subversion (s_about (setting (other x) c p)) < 256 -> listens x h ->
  Asking x (s_about (setting (other x) c p)) h s.
Proof.
  induction 1 as [|h s o s' st ev H IH S]; intros SM L.
  - constructor; destruct x; cbn; auto; intros; exists []; reflexivity.
  - eapply asking_step; eauto. apply IH; auto. eapply listens_tail; eauto.
Qed.
Theorem answers c p i lat tmo h s x : history (connected c p i lat tmo) h s -> subversion (s_about (setting (other x) c p)) < 256 -> listens x h ->
  exists rest, due x (s_about (setting (other x) c p)) h = told x h ++ rest /\ (quiet s -> up (cen s) = true -> up (per s) = true -> rest = []).
Proof.
  intros H SM L. destruct (history_asking _ _ _ _ _ _ _ x H SM L) as [AI AU AH (r & AD)]. exists r. split; auto. intros (Q1 & Q2) U1 U2.
  assert (E : due x (s_about (setting (other x) c p)) h = told x h).
  { rewrite AU by (destruct x; assumption). destruct x; cbn [toward other]; rewrite Q1, Q2; cbn; now rewrite app_nil_r. }
  rewrite E in AD. rewrite <- (app_nil_r (told x h)) in AD at 1. now apply app_inv_head in AD.
Qed.

(** ** Whatever the masks, no answer is false *)
Definition honest_packet (a : about) (p : pdu) : Prop :=
  match p with
  | FeaturesRsp f st => st = SUCCESS /\ f = all_features a
  | VersionRsp v sub man => v = version a /\ sub = subversion a mod 256 /\ man = manufacturer a
  | _ => True
  end.
Record Honest (x : side) (a : about) (s : system) : Prop := {
  ho_info : up (end_of (other x) s) = true -> info (end_of (other x) s) = a;
  ho_way : forall p, In p (toward x s) -> honest_packet a p;
  ho_known : forall f, known_features (end_of x s) = Some f -> f = all_features a }.
Lemma command_honest m e c e' st ps ev a : do_command m e c = (e', st, ps, ev) -> forall p, In p ps -> honest_packet a p.
Proof. intros H p I. destruct c; command_cases H; cbn in I; repeat (destruct I as [<-|I]; [exact Logic.I|]); contradiction. Qed.
Lemma receive_honest m e q e' ps ev : do_receive m e q = Some (e', ps, ev) -> forall p, In p ps -> honest_packet (info e) p.
Proof.
  intros H p I. destruct q; receive_cases H; cbn in I; repeat (destruct I as [<-|I]; [cbn; auto|]); contradiction.
Qed.
Lemma honest_step x a s o s' st ev : Honest x a s -> step s o = Some (s', st, ev) -> Honest x a s'.
Proof.
  intros [HI HW HK] H. destruct o as [y m c|y m]; destruct (same_or_other x y) as [->| ->].
  - destruct (view_host _ _ _ _ _ _ _ H) as (ps & D & O & T1 & T2). destruct (command_asks _ _ _ _ _ _ _ a D) as (_ & _ & _ & _ & _ & C6).
    constructor; rewrite ?O, ?T1, ?C6; auto.
  - destruct (view_host _ _ _ _ _ _ _ H) as (ps & D & O & T1 & T2). rewrite other_other in *. destruct (command_asks _ _ _ _ _ _ _ a D) as (_ & _ & _ & C4 & _ & C6).
    constructor; rewrite ?O, ?T2; auto.
    + intros U. destruct (C4 U) as (U' & -> & _). auto.
    + intros p I. apply in_app_iff in I as [I|I]; auto. eapply command_honest; eauto.
  - destruct (view_deliver _ _ _ _ _ _ H) as [(T & -> & ->)|(p & rest & ps & T & D & O & T1 & T2)]; [now constructor|].
    destruct (receive_told_answers _ _ _ _ _ _ a D) as (R1 & R2 & R3 & R4 & R5 & R6 & R7). rewrite T in HW.
    constructor; rewrite ?O, ?T1; auto.
    + intros q I. apply HW. now right.
    + intros f K. destruct R7 as [R7|(g & -> & R7)]; rewrite R7 in K; auto. injection K as <-. destruct (HW _ (or_introl eq_refl)) as (_ & ->). reflexivity.
  - destruct (view_deliver _ _ _ _ _ _ H) as [(T & -> & ->)|(p & rest & ps & T & D & O & T1 & T2)]; [now constructor|]. rewrite other_other in *.
    destruct (receive_told_answers _ _ _ _ _ _ a D) as (R1 & R2 & R3 & R4 & R5 & R6 & R7).
    constructor; rewrite ?O, ?T2; auto.
    + intros U. rewrite R6. auto.
    + intros q I. apply in_app_iff in I as [I|I]; auto. destruct (up (end_of (other x) s)) eqn:U.
      * rewrite <- (HI eq_refl). eapply receive_honest; eauto.
      * destruct (R2 eq_refl) as (-> & _). contradiction.
Qed.
Lemma history_honest c p i lat tmo h s x : history (connected c p i lat tmo) h s -> Honest x (s_about (setting (other x) c p)) s.
Proof.
  induction 1 as [|h s o s' st ev H IH S]; [|eapply honest_step; eauto].
  constructor; destruct x; cbn; try contradiction; try discriminate; auto.
Qed.
(** The same, without a condition on the subversion and the masks *)
Theorem truth c p i lat tmo h s x : history (connected c p i lat tmo) h s -> forall e ev, In e h -> on_side x (what e) = true -> In ev (events e) ->
  let a := s_about (setting (other x) c p) in
  (forall st f, ev = FeaturesComplete st f -> st = SUCCESS /\ f = all_features a) /\
  (forall st v man sub, ev = VersionComplete st v man sub -> st = SUCCESS /\ v = version a /\ man = manufacturer a /\ sub = subversion a mod 256).
Proof.
  induction 1 as [|h s o s' st ev H IH S]; intros e v I OX IV; [destruct I|]. destruct I as [<-|I]; [|eapply IH; eauto]. cbn in OX, IV. cbv zeta.
  destruct (history_honest _ _ _ _ _ _ _ x H) as [_ HW _].
  assert (A : answered v = true -> exists p, In p (toward x s) /\ In v (coming p)).
  { intros V. assert (IF : In v (List.filter answered ev)) by (apply filter_In; auto).
    destruct o as [y m c0|y m]; cbn in OX; assert (y = x) as -> by (destruct x, y; auto; discriminate).
    - destruct (view_host _ _ _ _ _ _ _ S) as (ps & D & _). destruct (command_asks _ _ _ _ _ _ _ (s_about c) D) as (_ & _ & C3 & _). rewrite C3 in IF. contradiction.
    - destruct (view_deliver _ _ _ _ _ _ S) as [(_ & _ & ->)|(q & rest & ps & T & D & _)]; [contradiction|].
      destruct (receive_told_answers _ _ _ _ _ _ (s_about c) D) as (_ & _ & _ & R4 & _). exists q. rewrite T. split; [now left|].
      destruct R4 as [R4|R4]; rewrite R4 in IF; [contradiction|assumption]. }
  split.
  - intros st' f ->. destruct (A eq_refl) as (q & Q1 & Q2). specialize (HW _ Q1). destruct q; cbn in Q2; try contradiction; destruct Q2 as [Q2|[]]; try discriminate. injection Q2 as <- <-. exact HW.
  - intros st' v' man sub ->. destruct (A eq_refl) as (q & Q1 & Q2). specialize (HW _ Q1). destruct q; cbn in Q2; try contradiction; destruct Q2 as [Q2|[]]; try discriminate.
    injection Q2 as <- <- <- <-. cbn in HW. intuition.
Qed.

(** ** LE Read PHY *)
Lemma command_phys m e c e' st ps ev b : do_command m e c = (e', st, ps, ev) ->
  tx_phy e' = tx_phy e /\ rx_phy e' = rx_phy e /\ last_phys ev b = b.
Proof.
  intros H. destruct c; command_cases H; unfold emit; repeat match goal with |- context [m ?k] => destruct (m k) eqn:? end; cbn; auto.
Qed.
Lemma phy_eqb_eq p q : phy_eqb p q = true -> p = q. Proof. destruct p, q; easy. Qed.
Lemma receive_phys m e p e' ps ev b : do_receive m e p = Some (e', ps, ev) -> m M_PHY_UPDATE = true -> b = (tx_phy e, rx_phy e) ->
  last_phys ev b = (tx_phy e', rx_phy e').
Proof.
  intros H M B. destruct p; receive_cases H; unfold emit; rewrite ?M; repeat match goal with |- context [m ?k] => destruct (m k) eqn:? end; cbn; auto.
  all: repeat match goal with |- context [if ?x then _ else _] => destruct x eqn:? end; cbn; auto.
  all: rewrite ?orb_false_iff, ?negb_false_iff in *; subst b;
    repeat match goal with X : _ /\ _ |- _ => destruct X end;
    repeat match goal with X : phy_eqb _ _ = true |- _ => apply phy_eqb_eq in X end; congruence.
Qed.
Lemma phys_told c p i lat tmo h s x : history (connected c p i lat tmo) h s ->
  (forall e, In e h -> on_side x (what e) = true -> mask_of (what e) M_PHY_UPDATE = true) ->
  told_phys x h = (tx_phy (end_of x s), rx_phy (end_of x s)).
Proof.
  induction 1 as [|h s o s' st ev H IH S]; intros L; [now destruct x|]. cbn [told_phys what events].
  assert (IH' := IH (fun e I => L e (or_intror I))). clear IH. pose proof (L _ (or_introl eq_refl)) as L0. cbn [what] in L0.
  destruct o as [y m c0|y m]; destruct (same_or_other x y) as [->| ->]; cbn [on_side mask_of] in *; rewrite ?side_eqb_refl, ?side_eqb_other in *.
  - destruct (view_host _ _ _ _ _ _ _ S) as (ps & D & _). destruct (command_phys _ _ _ _ _ _ _ (told_phys x h) D) as (-> & -> & ->). exact IH'.
  - destruct (view_host _ _ _ _ _ _ _ S) as (ps & D & O & _). rewrite other_other in O. now rewrite O.
  - destruct (view_deliver _ _ _ _ _ _ S) as [(_ & -> & ->)|(q & rest & ps & T & D & _)]; [exact IH'|]. eapply receive_phys; eauto.
  - destruct (view_deliver _ _ _ _ _ _ S) as [(_ & -> & ->)|(q & rest & ps & T & D & O & _)]; [exact IH'|]. rewrite other_other in O. now rewrite O.
Qed.
(** The answer of LE Read PHY is what the host was last told, and, when no packet is under
    way, the reverse of what the other host is given *)
Theorem read_phy c p i lat tmo h s x m : history (connected c p i lat tmo) h s -> up (end_of x s) = true ->
  exists tx rx, step s (Host x m ReadPhy) = Some (s, SUCCESS, [PhysAre tx rx]) /\
  ((forall e, In e h -> on_side x (what e) = true -> mask_of (what e) M_PHY_UPDATE = true) -> told_phys x h = (tx, rx)) /\
  (quiet s -> forall m', up (end_of (other x) s) = true -> step s (Host (other x) m' ReadPhy) = Some (s, SUCCESS, [PhysAre rx tx])).
Proof.
  intros H U. exists (tx_phy (end_of x s)), (rx_phy (end_of x s)). split; [|split].
  - destruct x; cbn in *; rewrite U; cbn; rewrite app_nil_r; now destruct s.
  - intros L. eapply phys_told; eauto.
  - intros (Q1 & Q2) m' U'. assert (UP : up (per s) = true) by (destruct x; assumption). destruct (phys_equal _ _ _ _ _ _ _ H UP Q1) as (E1 & E2).
    destruct x; cbn in *; rewrite U'; cbn; rewrite app_nil_r, ?E1, ?E2; now destruct s.
Qed.

(** ** LE Set Host Feature *)
Theorem host_feature m e others bit value e' st ps ev : do_command m e (SetHostFeature others bit value) = (e', st, ps, ev) ->
  ps = [] /\ ev = [] /\ (st = SUCCESS <-> (host_controlled bit /\ value <= 1 /\ up e = false /\ others = false)) /\
  (st <> SUCCESS -> e' = e) /\
  (st = SUCCESS -> e' = with_info (info e') e /\
     forall b, N.testbit (all_features (info e')) b = N.testbit (le_features (info e)) b || (if b =? bit then value =? 1 else N.testbit (host_features (info e)) b)).
Proof.
  intros H. unfold do_command in H. unfold host_controlled. destruct ((64 <=? bit) || (1 <? value)) eqn:A.
  { unfold refuse in H. injection H as <- <- <- <-. repeat split; auto; try discriminate; try congruence.
    intros (B & C & _). exfalso. apply orb_true_iff in A as [A|A]; [apply N.leb_le in A|apply N.ltb_lt in A]; lia. }
  apply orb_false_iff in A as [A1 A2]. apply N.leb_gt in A1. apply N.ltb_ge in A2. destruct (up e || others) eqn:B.
  { unfold refuse in H. injection H as <- <- <- <-. repeat split; auto; try discriminate; try congruence.
    intros (_ & _ & C & D). rewrite C, D in B. discriminate. }
  apply orb_false_iff in B as [B1 B2]. destruct ((bit =? 32) || (bit =? 38) || (bit =? 47)) eqn:C; cbn [negb] in H.
  - injection H as <- <- <- <-. apply orb_true_iff in C as [C|C]; [apply orb_true_iff in C as [C|C]|]; apply N.eqb_eq in C.
    all: repeat split; auto; try congruence.
    all: intros b; unfold all_features; cbn [info with_info with_host_features le_features host_features]; rewrite N.lor_spec; f_equal;
      destruct (N.eqb_spec b bit) as [->|NE]; destruct (N.eqb_spec value 0) as [V|V];
      rewrite ?N.ldiff_spec, ?N.lor_spec, ?N.pow2_bits_true, ?(N.pow2_bits_false _ _ (not_eq_sym NE)), ?orb_true_r, ?orb_false_r, ?andb_false_r, ?andb_true_r; auto.
    all: try (rewrite V; reflexivity).
    all: try (assert (value = 1) as -> by lia; reflexivity).
    all: cbn; rewrite ?andb_true_r; auto.
  - unfold refuse in H. injection H as <- <- <- <-. repeat split; auto; try discriminate; try congruence.
    intros ([->|[->| ->]] & _); discriminate.
Qed.
(** So what a controller tells stays the same while it has the connection *)
Theorem features_kept c p i lat tmo h s x : history (connected c p i lat tmo) h s -> up (end_of x s) = true -> info (end_of x s) = s_about (setting x c p).
Proof. intros H U. destruct (history_honest _ _ _ _ _ _ _ (other x) H) as [HI _ _]. rewrite other_other in HI. auto. Qed.
Theorem known c p i lat tmo h s x f : history (connected c p i lat tmo) h s -> known_features (end_of x s) = Some f -> f = all_features (s_about (setting (other x) c p)).
Proof. intros H. exact (ho_known _ _ _ (history_honest _ _ _ _ _ _ _ x H) f). Qed.

(** ** The questions change nothing *)
Theorem harmless s x m c s' st ev : question c = true -> step s (Host x m c) = Some (s', st, ev) ->
  cen s' = cen s /\ per s' = per s /\ (st <> SUCCESS -> s' = s /\ ev = []) /\
  (st = UNKNOWN_CONNECTION <-> up (end_of x s) = false) /\
  (up (end_of x s) = true -> st = SUCCESS \/
     exists o t, c = SetDataLength o t /\ st = INVALID_HCI_COMMAND_PARAMETERS /\ ~ (0x1b <= o <= 0xfb /\ 0x148 <= t <= 0x4290)).
Proof.
  intros Q H. unfold step in H. destruct x.
  all: match type of H with context [do_command ?m ?e ?c] => destruct (do_command m e c) as [[[e1 st1] ps] ev1] eqn:D end; injection H as <- <- <-; cbn [end_of].
  all: destruct c; try discriminate Q; command_cases D; rewrite ?negb_true_iff, ?negb_false_iff in *; cbn [cen per]; rewrite ?app_nil_r;
    (split; [reflexivity|]; split; [reflexivity|]; split; [try congruence; intros _; destruct s; auto|]; split; [split; intros; (congruence || discriminate)|]);
    intros U; try congruence; auto.
  all: right; eexists _, _; split; [reflexivity|]; split; [reflexivity|]; rewrite ?orb_true_iff, ?orb_false_iff, ?N.ltb_lt, ?N.ltb_ge in *; lia.
Qed.
