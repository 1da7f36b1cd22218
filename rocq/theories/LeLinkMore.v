(** Proofs about LE connections: encryption, disconnection, end of the exchanges, choice
    of the PHYs. *)
From Verif Require Import Prelude LeLink LeLinkSpec LeLinkProofs.
Open Scope N_scope.
Ltac Zify.zify_post_hook ::= Z.div_mod_to_equations.

(** * Encryption *)
Definition enc_ok (k : list N) (p : pdu) : Prop :=
  match p with EncReq _ => False | EncRsp st k' => st = SUCCESS -> k' = k | _ => True end.
Definition no_rsp (p : pdu) : Prop := match p with EncRsp _ _ => False | _ => True end.
Definition good_rsp (p : pdu) : bool := match p with EncRsp st _ => st =? SUCCESS | _ => false end.

Record Enc (k : list N) (s : system) : Prop := {
  e_ltk : ltk (cen s) = None \/ ltk (cen s) = Some k;
  e_to_cen : Forall (enc_ok k) (to_cen s);
  e_to_per : Forall no_rsp (to_per s);
  e_per : existsb good_rsp (to_cen s) = true \/ encrypted (cen s) = true -> encrypted (per s) = true;
  e_cen : up (cen s) = true -> encrypted (per s) = true -> encrypted (cen s) = true \/ existsb good_rsp (to_cen s) = true }.

Lemma command_cen_enc k m e c e' st ps ev : same_key k (Host Central m c) -> do_command m e c = (e', st, ps, ev) ->
  ltk e = None \/ ltk e = Some k -> (ltk e' = None \/ ltk e' = Some k) /\ encrypted e' = encrypted e /\ Forall no_rsp ps /\ (up e' = true -> up e = true).
Proof.
  intros S H L. destruct c; try contradiction; command_cases H; cbn in *; (split; [try (subst; now right); exact L|]); (split; [reflexivity|]); (split; [repeat constructor|congruence]).
Qed.
Lemma command_per_enc k m e c e' st ps ev : same_key k (Host Peripheral m c) -> do_command m e c = (e', st, ps, ev) ->
  Forall (enc_ok k) ps /\ (encrypted e = true -> encrypted e' = true) /\ (existsb good_rsp ps = true -> encrypted e' = true) /\
  (encrypted e' = true -> encrypted e = true \/ existsb good_rsp ps = true).
Proof.
  intros S H. destruct c; try contradiction; command_cases H; cbn in *; (split; [first [apply Forall_nil|apply Forall_cons; [cbn; easy|apply Forall_nil]]|]); (split; [auto|]); (split; [try congruence; try discriminate|auto]).
Qed.
Lemma receive_cen_enc k m e p e' ps ev : enc_ok k p -> ltk e = None \/ ltk e = Some k -> do_receive m e p = Some (e', ps, ev) ->
  ltk e' = ltk e /\ Forall no_rsp ps /\ (encrypted e' = true -> encrypted e = true \/ good_rsp p = true) /\ (encrypted e = true -> encrypted e' = true) /\
  (up e' = true -> good_rsp p = true -> encrypted e' = true).
Proof.
  intros S L H. destruct p; cbn in S; try contradiction;
    try solve [receive_cases H; cbn in *; (split; [reflexivity|]); (split; [repeat constructor|]); (split; [auto|]); (split; [auto|]); try discriminate; congruence].
  { unfold do_receive in H. cbv zeta in H. destruct (negb (up e)) eqn:U; [injection H as <- <- <-; repeat split; auto; rewrite negb_true_iff in U; congruence|].
    destruct (encrypted e) eqn:E; [injection H as <- <- <-; repeat split; auto|].
    destruct (N.eqb_spec status 0) as [Z|Z].
    - assert (D : match ltk e with Some k => negb (list_eqb key k) | None => false end = false).
      { destruct L as [L|L]; rewrite L; [reflexivity|]. rewrite (S Z), list_eqb_refl. reflexivity. }
      rewrite D in H. cbn [negb orb] in H. injection H as <- <- <-. cbn. rewrite (proj2 (N.eqb_eq status SUCCESS) Z). repeat split; auto.
    - cbn [negb orb] in H. injection H as <- <- <-. cbn. rewrite (proj2 (N.eqb_neq status SUCCESS) Z). repeat split; auto; try congruence; try discriminate. }
Qed.
Lemma receive_per_enc k m e p e' ps ev : no_rsp p -> do_receive m e p = Some (e', ps, ev) ->
  encrypted e' = encrypted e /\ Forall (enc_ok k) ps /\ existsb good_rsp ps = false.
Proof.
  intros S H. destruct p; cbn in S; try contradiction; receive_cases H; cbn; repeat split; try reflexivity; repeat constructor.
Qed.

Lemma step_enc k s o s' st ev : Enc k s -> same_key k o -> step s o = Some (s', st, ev) -> Enc k s'.
Proof.
  intros [A B C E F] S H. step_cases H.
  - destruct (command_cen_enc k _ _ _ _ _ _ _ S D A) as (X & Y & Z & V). constructor; cbn; rewrite ?Y; try assumption; [now apply Forall_app|auto].
  - destruct (command_per_enc k _ _ _ _ _ _ _ S D) as (X & Y & Z & W). constructor; cbn; try assumption; [now apply Forall_app| |]; rewrite existsb_app, orb_true_iff.
    + intros [[G|G]|G]; auto.
    + intros U Q. destruct (W Q) as [W'|W']; [destruct (F U W'); auto|auto].
  - constructor; rewrite ?T; assumption.
  - rewrite ?T in *. inversion B as [|x y B1 B2]; subst. destruct (receive_cen_enc k _ _ _ _ _ _ B1 A D) as (X & Y & Z & W & V).
    constructor; cbn; rewrite ?X; try assumption; [now apply Forall_app| |].
    + intros [G|G]; [apply E; left; cbn; rewrite G; apply orb_true_r|]. destruct (Z G) as [Z'|Z']; apply E; [now right|left; cbn; now rewrite Z'].
    + intros U Q. destruct (F (receive_up _ _ _ _ _ _ D U) Q) as [F'|F']; [left; auto|]. cbn in F'. apply orb_true_iff in F' as [F'|F']; [left; exact (V U F')|now right].
  - constructor; rewrite ?T; assumption.
  - rewrite ?T in *. inversion C as [|x y C1 C2]; subst. destruct (receive_per_enc k _ _ _ _ _ _ C1 D) as (X & Y & Z).
    constructor; cbn; rewrite ?X; try assumption; [now apply Forall_app| |]; rewrite existsb_app, Z, orb_false_r; assumption.
Qed.
Lemma history_enc k c p i lat tmo h s : history (connected c p i lat tmo) h s -> (forall e, In e h -> same_key k (what e)) -> Enc k s.
Proof.
  intros H Q. induction H as [|h s o s' st ev H IH S].
  - constructor; cbn; try (constructor; fail); [now left|now intros [|]|discriminate].
  - eapply step_enc; [apply IH; intros x I; apply Q; now right| |exact S]. exact (Q _ (or_introl eq_refl)).
Qed.
Lemma encryption_agrees k c p i lat tmo h s : history (connected c p i lat tmo) h s -> (forall e, In e h -> same_key k (what e)) ->
  up (cen s) = true -> to_cen s = [] -> encrypted (cen s) = encrypted (per s).
Proof.
  intros H Q U T. destruct (history_enc k _ _ _ _ _ _ _ H Q) as [_ _ _ A B]. rewrite T in *. cbn in *.
  destruct (encrypted (per s)) eqn:P; [destruct (B U eq_refl); congruence|]. destruct (encrypted (cen s)); [|reflexivity]. symmetry. apply A. now right.
Qed.

(** The key of the peripheral's host *)
Definition replied (h : list entry) (k : list N) : Prop := exists m ev, In (Entry (Host Peripheral m (LtkReply k)) SUCCESS ev) h.
Definition rsp_from (h : list entry) (p : pdu) : Prop := match p with EncRsp st k => st = SUCCESS -> replied h k | _ => True end.
Lemma rsp_weaken h e p : rsp_from h p -> rsp_from (e :: h) p.
Proof. destruct p; cbn; auto. intros H S. destruct (H S) as (m & ev & I). exists m, ev. now right. Qed.

Lemma command_rsp m e c e' st ps ev h x : do_command m e c = (e', st, ps, ev) -> x = Peripheral -> Forall (rsp_from (Entry (Host x m c) st ev :: h)) ps.
Proof.
  intros H ->. destruct c; command_cases H; repeat constructor; cbn; try discriminate; intros _; eexists _, _; left; reflexivity.
Qed.
Lemma receive_rsp m e p e' ps ev h : do_receive m e p = Some (e', ps, ev) -> Forall (rsp_from h) ps.
Proof. intros H. destruct p; receive_cases H; repeat constructor. Qed.
Lemma history_rsp init h s : to_cen init = [] -> history init h s -> Forall (rsp_from h) (to_cen s).
Proof.
  intros I H. induction H as [|h s o s' st ev H IH S]; [rewrite I; constructor|].
  assert (W : Forall (rsp_from (Entry o st ev :: h)) (to_cen s)) by (eapply Forall_impl; [|exact IH]; intros; now apply rsp_weaken).
  step_cases S; cbn.
  - exact W.
  - apply Forall_app. split; [exact W|]. eapply command_rsp; [exact D|reflexivity].
  - rewrite T. exact W.
  - rewrite ?T in W. now inversion W.
  - exact W.
  - apply Forall_app. split; [exact W|]. eapply receive_rsp. exact D.
Qed.
Lemma command_not_encrypts m e c e' st ps ev : do_command m e c = (e', st, ps, ev) -> encrypted e = false -> encrypted e' = true -> exists k, c = LtkReply k.
Proof. intros H A B. destruct c; command_cases H; cbn in *; try congruence; eauto. Qed.
Lemma rsp_encrypts m e p e' ps ev : do_receive m e p = Some (e', ps, ev) -> encrypted e = false -> encrypted e' = true ->
  exists k, p = EncRsp SUCCESS k /\ (ltk e = None \/ ltk e = Some k).
Proof.
  intros H A B. destruct p; try solve [exfalso; receive_cases H; cbn in *; congruence].
  unfold do_receive in H. cbv zeta in H. destruct (negb (up e)); [injection H as <- <- <-; congruence|]. rewrite A in H.
  destruct (N.eqb_spec status 0) as [->|Z]; cbn [negb orb] in H; [|injection H as <- <- <-; congruence].
  exists key. split; [reflexivity|]. destruct (ltk e) as [k|]; [right|now left].
  destruct (list_eqb key k) eqn:L; cbn in H; [apply list_eqb_eq in L; now subst|injection H as <- <- <-; congruence].
Qed.
Lemma central_key sc sp i lat tmo h s o s' st ev : history (connected sc sp i lat tmo) h s -> step s o = Some (s', st, ev) ->
  encrypted (cen s) = false -> encrypted (cen s') = true ->
  (exists m k, o = Host Central m (LtkReply k)) \/
  exists k, replied h k /\ (ltk (cen s) = None \/ ltk (cen s) = Some k).
Proof.
  intros H S A B. pose proof (history_rsp (connected sc sp i lat tmo) h s eq_refl H) as W. step_cases S; cbn in B; try congruence.
  - left. destruct (command_not_encrypts _ _ _ _ _ _ _ D A B) as (k & ->). eauto.
  - right. rewrite ?T in W. inversion W as [|x y W1 _]; subst. destruct (rsp_encrypts _ _ _ _ _ _ D A B) as (k & -> & L).
    exists k. split; [exact (W1 eq_refl)|exact L].
Qed.

(** * Disconnection *)
Definition is_disc (p : pdu) : bool := match p with Disc _ => true | _ => false end.
Record Closing (s : system) : Prop := {
  c_cen : up (cen s) = false -> up (per s) = false \/ existsb is_disc (to_per s) = true;
  c_per : up (per s) = false -> up (cen s) = false \/ existsb is_disc (to_cen s) = true;
  c_to_cen : existsb is_disc (to_cen s) = true -> up (per s) = false;
  c_to_per : existsb is_disc (to_per s) = true -> up (cen s) = false }.

Lemma command_closing m e c e' st ps ev : do_command m e c = (e', st, ps, ev) ->
  (up e' = up e /\ existsb is_disc ps = false) \/ (up e' = false /\ existsb is_disc ps = true).
Proof. intros H. destruct c; command_cases H; cbn; auto. Qed.
Lemma receive_closing m e p e' ps ev : do_receive m e p = Some (e', ps, ev) ->
  existsb is_disc ps = false /\ ((up e' = up e /\ (is_disc p = true -> up e = false)) \/ (up e' = false /\ is_disc p = true)).
Proof.
  intros H. destruct p; receive_cases H; cbn; rewrite ?negb_true_iff, ?negb_false_iff in *; (split; [reflexivity|]); auto; left; (split; [congruence|]); congruence.
Qed.

Lemma step_closing s o s' st ev : Closing s -> step s o = Some (s', st, ev) -> Closing s'.
Proof.
  intros [A B C E] H. step_cases H; rewrite ?T in *; cbn [existsb] in *.
  - destruct (command_closing _ _ _ _ _ _ _ D) as [[X Y]|[X Y]]; constructor; cbn; rewrite ?existsb_app, ?X, ?Y, ?orb_false_r, ?orb_true_r; auto.
  - destruct (command_closing _ _ _ _ _ _ _ D) as [[X Y]|[X Y]]; constructor; cbn; rewrite ?existsb_app, ?X, ?Y, ?orb_false_r, ?orb_true_r; auto.
  - constructor; rewrite ?T; assumption.
  - destruct (receive_closing _ _ _ _ _ _ D) as [Y [[X Z]|[X Z]]]; constructor; cbn; rewrite ?existsb_app, ?X, ?Y, ?orb_false_r; auto.
    + intros U. destruct (B U) as [Q|Q]; auto. apply orb_true_iff in Q as [Q|Q]; auto.
    + intros Q. apply C. rewrite Q. apply orb_true_r.
    + intros _. left. apply C. now rewrite Z.
    + intros Q. apply C. rewrite Q. apply orb_true_r.
  - constructor; rewrite ?T; assumption.
  - destruct (receive_closing _ _ _ _ _ _ D) as [Y [[X Z]|[X Z]]]; constructor; cbn; rewrite ?existsb_app, ?X, ?Y, ?orb_false_r; auto.
    + intros U. destruct (A U) as [Q|Q]; auto. apply orb_true_iff in Q as [Q|Q]; auto.
    + intros Q. apply E. rewrite Q. apply orb_true_r.
    + intros _. left. apply E. now rewrite Z.
    + intros Q. apply E. rewrite Q. apply orb_true_r.
Qed.
Lemma history_closing c p i lat tmo h s : history (connected c p i lat tmo) h s -> Closing s.
Proof. induction 1; [constructor; discriminate|eapply step_closing; eassumption]. Qed.
Lemma closed_together c p i lat tmo h s : history (connected c p i lat tmo) h s -> quiet s -> up (cen s) = up (per s).
Proof.
  intros H [Q1 Q2]. destruct (history_closing _ _ _ _ _ _ _ H) as [A B _ _]. rewrite Q1, Q2 in *. cbn in *.
  destruct (up (cen s)), (up (per s)); try reflexivity; [destruct (B eq_refl); congruence|destruct (A eq_refl); congruence].
Qed.

Lemma closed_command s x m c s' st ev : up (end_of x s) = false -> step s (Host x m c) = Some (s', st, ev) ->
  ev = [] /\ to_per s' = to_per s /\ to_cen s' = to_cen s.
Proof.
  intros U H. unfold step in H. destruct x; cbn in U.
  - destruct (do_command m (cen s) c) as [[[e' st'] ps] ev'] eqn:D. injection H as <- <- <-.
    destruct c; command_cases D; rewrite ?U in *; try discriminate; cbn; now rewrite app_nil_r.
  - destruct (do_command m (per s) c) as [[[e' st'] ps] ev'] eqn:D. injection H as <- <- <-.
    destruct c; command_cases D; rewrite ?U in *; try discriminate; cbn; now rewrite app_nil_r.
Qed.
Lemma closed_receive m e p : up e = false -> do_receive m e p = Some (e, [], []).
Proof. intros U. unfold do_receive. now rewrite U. Qed.

Definition closings (ev : list event) : nat := List.length (List.filter closed_event ev).
Lemma command_told m e c e' st ps ev : do_command m e c = (e', st, ps, ev) ->
  (up e' = up e /\ closings ev = 0%nat) \/ (up e = true /\ up e' = false /\ (closings ev <= 1)%nat /\ (m M_DISCONNECTION = true -> closings ev = 1%nat)).
Proof.
  intros H. destruct c; command_cases H; unfold emit; repeat match goal with |- context [if ?b then _ else _] => destruct b end; auto; right;
    rewrite ?negb_false_iff in *; cbn; (split; [assumption|]); (split; [reflexivity|]); (split; [lia|]); try reflexivity; intros; congruence.
Qed.
Lemma receive_told m e p e' ps ev : do_receive m e p = Some (e', ps, ev) ->
  (up e' = up e /\ closings ev = 0%nat) \/ (up e = true /\ up e' = false /\ (closings ev <= 1)%nat /\ (m M_DISCONNECTION = true -> closings ev = 1%nat)).
Proof.
  intros H. destruct p; receive_cases H; unfold emit; repeat match goal with |- context [if ?b then _ else _] => destruct b end; auto; right;
    rewrite ?negb_false_iff in *; cbn; (split; [assumption|]); (split; [reflexivity|]); (split; [lia|]); try reflexivity; intros; congruence.
Qed.
Lemma step_told s o s' st ev x : step s o = Some (s', st, ev) ->
  (on_side x o = false /\ end_of x s' = end_of x s) \/
  (on_side x o = true /\ ((up (end_of x s') = up (end_of x s) /\ closings ev = 0%nat) \/
     (up (end_of x s) = true /\ up (end_of x s') = false /\ (closings ev <= 1)%nat /\ (mask_of o M_DISCONNECTION = true -> closings ev = 1%nat)))).
Proof.
  intros H. step_cases H; destruct x; cbn; auto; right; (split; [reflexivity|]); auto.
  - exact (command_told _ _ _ _ _ _ _ D).
  - exact (command_told _ _ _ _ _ _ _ D).
  - exact (receive_told _ _ _ _ _ _ D).
  - exact (receive_told _ _ _ _ _ _ D).
Qed.
Lemma told_once c p i lat tmo h s x : history (connected c p i lat tmo) h s ->
  (disconnections x h <= 1)%nat /\ (up (end_of x s) = true -> disconnections x h = 0%nat) /\
  (up (end_of x s) = false -> (forall e, In e h -> mask_of (what e) M_DISCONNECTION = true) -> disconnections x h = 1%nat).
Proof.
  induction 1 as [|h s o s' st ev H (A & B & C) S]; [cbn; repeat split; auto; destruct x; discriminate|].
  cbn [disconnections what events]. fold (closings ev).
  destruct (step_told _ _ _ _ _ x S) as [[E F]|[E [[F G]|(F & G & K & L)]]]; rewrite E.
  - rewrite F. cbn. (split; [exact A|]; split; [exact B|]); intros U M; apply C; [exact U|]; intros e I; apply M; now right.
  - rewrite F, G. cbn. (split; [exact A|]; split; [exact B|]); intros U M; apply C; [exact U|]; intros e I; apply M; now right.
  - rewrite (B F), G, Nat.add_0_r. repeat split; [exact K|discriminate|]. intros _ M. apply L. exact (M _ (or_introl eq_refl)).
Qed.

(** * The exchanges end *)
Definition weight (p : pdu) : nat := match p with PhyReq _ _ => 3 | PhyRsp _ _ => 2 | SubrateReq _ _ _ _ _ => 2 | ParamReq _ _ _ _ => 2 | FeaturesReq | VersionReq => 2 | _ => 1 end%nat.
Definition total (ps : list pdu) : nat := list_sum (map weight ps).
Definition pending (s : system) : nat := (total (to_per s) + total (to_cen s))%nat.
Lemma total_app a b : total (a ++ b) = (total a + total b)%nat.
Proof. unfold total. now rewrite map_app, list_sum_app. Qed.
Lemma receive_weight m e p e' ps ev : do_receive m e p = Some (e', ps, ev) -> (total ps < weight p)%nat.
Proof. intros H. destruct p; receive_cases H; cbn; lia. Qed.
Lemma deliver_decreases s x m s' st ev : step s (Deliver x m) = Some (s', st, ev) ->
  (match x with Central => to_cen s | Peripheral => to_per s end) <> [] -> (pending s' < pending s)%nat.
Proof.
  intros H N. unfold step in H. unfold pending. destruct x.
  - destruct (to_cen s) as [|p rest] eqn:T; [congruence|]. destruct (do_receive m (cen s) p) as [[[e' ps] ev']|] eqn:D; [|discriminate]. injection H as <- <- <-.
    pose proof (receive_weight _ _ _ _ _ _ D). cbn [to_per to_cen]. rewrite total_app. change (total (p :: rest)) with (weight p + total rest)%nat. lia.
  - destruct (to_per s) as [|p rest] eqn:T; [congruence|]. destruct (do_receive m (per s) p) as [[[e' ps] ev']|] eqn:D; [|discriminate]. injection H as <- <- <-.
    pose proof (receive_weight _ _ _ _ _ _ D). cbn [to_per to_cen]. rewrite total_app. change (total (p :: rest)) with (weight p + total rest)%nat. lia.
Qed.
(** Deliveries, in any order, lead to a quiet state *)
Lemma settles c p i lat tmo m : forall n h s, history (connected c p i lat tmo) h s -> (pending s <= n)%nat ->
  exists ds s', history (connected c p i lat tmo) (ds ++ h) s' /\ quiet s' /\ (List.length ds <= n)%nat /\
    forall e, In e ds -> exists x, what e = Deliver x m.
Proof.
  induction n as [|n IH]; intros h s H L.
  - exists [], s. split; [exact H|]. split; [|split; [apply le_n|intros e []]]. unfold pending in L.
    split; [destruct (to_per s) as [|q r]|destruct (to_cen s) as [|q r]]; try reflexivity; exfalso; cbn in L; destruct q; cbn in L; lia.
  - destruct (to_per s) as [|q r] eqn:T1; [destruct (to_cen s) as [|q r] eqn:T2|].
    + exists [], s. split; [exact H|]. split; [now split|]. split; [cbn; lia|intros e []].
    + destruct (step s (Deliver Central m)) as [[[s' st] ev]|] eqn:S; [|destruct (step_defined s (Deliver Central m) (history_roles _ _ _ _ _ _ _ H) S)].
      assert (P : (pending s' < pending s)%nat) by (apply (deliver_decreases _ _ _ _ _ _ S); rewrite T2; discriminate).
      destruct (IH _ s' (h_step _ _ _ _ _ _ _ H S)) as (ds & s'' & A & B & C & E); [lia|].
      exists (ds ++ [Entry (Deliver Central m) st ev]), s''. rewrite <- app_assoc. split; [exact A|]. split; [exact B|].
      split; [rewrite app_length; cbn; lia|]. intros e I. apply in_app_iff in I as [I|[<-|[]]]; [exact (E e I)|now exists Central].
    + destruct (step s (Deliver Peripheral m)) as [[[s' st] ev]|] eqn:S; [|destruct (step_defined s (Deliver Peripheral m) (history_roles _ _ _ _ _ _ _ H) S)].
      assert (P : (pending s' < pending s)%nat) by (apply (deliver_decreases _ _ _ _ _ _ S); rewrite T1; discriminate).
      destruct (IH _ s' (h_step _ _ _ _ _ _ _ H S)) as (ds & s'' & A & B & C & E); [lia|].
      exists (ds ++ [Entry (Deliver Peripheral m) st ev]), s''. rewrite <- app_assoc. split; [exact A|]. split; [exact B|].
      split; [rewrite app_length; cbn; lia|]. intros e I. apply in_app_iff in I as [I|[<-|[]]]; [exact (E e I)|now exists Peripheral].
Qed.
