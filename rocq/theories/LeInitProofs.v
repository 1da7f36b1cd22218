(** Proofs about the parameters of the LE initiator. *)
From Verif Require Import Prelude Address Rpa Table LeTypes LeAdvertise LeLists LeScan LeInitiate LeHost LeTac LeFrame LeStep.
From Verif Require Import LeHistory LeListsProofs LeAdvertSpec LeAdvertProofs LeOutputs LeParamsSpec LeParamsProofs.
Open Scope N_scope.

Lemma check_connection_ok p : check_connection p = None -> in_range p /\ link_rule N.le p.
Proof.
  unfold check_connection, in_range, link_rule. intros H.
  destruct (_ || _) eqn:B1 in H; [discriminate|].
  destruct (ip_scan_interval p <? ip_scan_window p) eqn:B2; [discriminate|].
  destruct (_ || _) eqn:B3 in H; [discriminate|].
  destruct (ip_interval_max p <? ip_interval_min p) eqn:B4; [discriminate|].
  destruct (499 <? ip_latency p) eqn:B5; [discriminate|].
  destruct (_ || _) eqn:B6 in H; [discriminate|].
  destruct (_ <? _) eqn:B7 in H; [discriminate|]. clear H.
  repeat (apply orb_false_iff in B1 as [B1 ?]). repeat (apply orb_false_iff in B3 as [B3 ?]). repeat (apply orb_false_iff in B6 as [B6 ?]).
  rewrite N.ltb_ge in *. repeat split; try assumption.
  clear - B7.
  replace ((1 + ip_latency p) * (2 * ip_interval_max p * 625) * 2) with (((1 + ip_latency p) * ip_interval_max p) * 2500) in B7 by ring.
  replace ((1 + ip_latency p) * (1250 * ip_interval_max p) * 2) with (((1 + ip_latency p) * ip_interval_max p) * 2500) by ring.
  set (x := (1 + ip_latency p) * ip_interval_max p) in *. clearbody x.
  pose proof (N.div_mod (x * 2500) 1000 ltac:(discriminate)) as D.
  pose proof (N.mod_lt (x * 2500) 1000 ltac:(discriminate)) as M.
  set (q := x * 2500 / 1000) in *. set (r := (x * 2500) mod 1000) in *. clearbody q r. lia.
Qed.
Lemma check_connections_ok l : check_connections l = None -> Forall (fun p => in_range p /\ link_rule N.le p) l.
Proof.
  induction l as [|p l IH]; cbn [check_connections]; intros H; constructor.
  - destruct (check_connection p) eqn:E; [discriminate|]. now apply check_connection_ok.
  - destruct (check_connection p); [discriminate|]. now apply IH.
Qed.

Section WithController.
Variable aes : list N -> list N -> list N.
Variable rng : N -> N.
Variable cfg : config.
Notation step := (step aes rng cfg).
Notation history := (history aes rng cfg).

Definition same_init_phys (s s' : le) : Prop :=
  (init_enabled (init s') = true -> init_enabled (init s) = true) /\
  init_1m (init s') = init_1m (init s) /\ init_2m (init s') = init_2m (init s) /\ init_coded (init s') = init_coded (init s).

Definition sets_init_phys (o : op) : bool :=
  match o with Command (Reset | CreateConnection _ _ _ _ | ExtCreateConnection _ _ _ _ _) => true | _ => false end.

Lemma same_init_refl s s' : init s' = init s -> same_init_phys s s'.
Proof. intros E. unfold same_init_phys. rewrite E. auto. Qed.

Lemma handle_connection_init peer resolved own central i lat sup cs s s' h o :
  handle_connection peer resolved own central i lat sup cs s = Some (s', h, o) -> same_init_phys s s'.
Proof.
  unfold handle_connection. intros H. destruct (Handles.get_unused_handle _ _ _ _) as [[c last]|]; [|discriminate].
  destruct (list_eqb _ (init_address _)) in H; injection H as <- <- <-; unfold same_init_phys; le_simpl; auto.
Qed.
Lemma same_init_trans a b c : same_init_phys a b -> same_init_phys b c -> same_init_phys a c.
Proof. intros (E1 & E2 & E3 & E4) (F1 & F2 & F3 & F4). unfold same_init_phys. rewrite F2, F3, F4. auto. Qed.

Lemma sets_connect_init m : forall i adv x y z s s' o,
  sets_connect_request aes m i adv x y z s = Next s' o -> same_init_phys s s'.
Proof.
  induction m as [|[h a] m IH]; cbn [sets_connect_request]; intros i adv x y z s s' o H.
  - injection H as <- <-. now apply same_init_refl.
  - destruct (set_connect_request aes h a i adv x y z s) as [e|s1] eqn:E.
    + subst e. unfold set_connect_request in E. destruct (negb _) in E; [discriminate|].
      destruct (resolve aes i s) as [s1 r] eqn:R. apply resolve_frame in R as (l & -> & _).
      destruct (negb _) in E; [discriminate|]. injection E as E.
      destruct (handle_connection _ _ _ _ _ _ _ _ _) as [[[s2 c] o2]|] eqn:HC in E; [|discriminate].
      injection E as <- <-. apply handle_connection_init in HC. exact HC.
    + assert (init s1 = init s) as EI.
      { unfold set_connect_request in E. destruct (negb _) in E; [now injection E as <-|].
        destruct (resolve aes i s) as [s2 r] eqn:R. apply resolve_frame in R as (l & -> & _).
        destruct (negb _) in E; [now injection E as <-|discriminate]. }
      apply IH in H. eapply same_init_trans; [|exact H]. now apply same_init_refl.
Qed.

Lemma init_phys_kept now s o s' st out : step now s o = Ok s' st out -> sets_init_phys o = false -> same_init_phys s s'.
Proof.
  intros S T. destruct (touches o PInit) eqn:TS.
  2:{ pose proof (step_same _ _ _ _ _ _ _ _ _ S PInit TS) as E. now apply same_init_refl. }
  destruct o as [c|p|]; cbn [LeHost.step] in S; [| |discriminate].
  - destruct c; try discriminate; unfold_step S; crack S; try discriminate; ok S; unfold same_init_phys; le_simpl; auto.
    all: repeat split; intros; auto; discriminate.
  - destruct p; try discriminate; cbn [receive] in S.
    1-2: unfold of_effect, receive_legacy_pdu, receive_extended_pdu in S;
      destruct (then_also _ _) as [s1 o1| |] eqn:E; try discriminate; injection S as <- <- <-;
      apply then_also_inv in E; destruct E as (s2 & o2 & o3 & E1 & E2 & ->); frames; unfold same_init_phys; le_simpl; auto.
    + unfold of_effect in S. destruct (receive_connect _ _ _ _ _ _ _) as [s1 o1| |] eqn:E; try discriminate. ok S.
      unfold receive_connect in E. destruct (legacy_connect_request _ _ _ _ _ _ _) as [e|s2] eqn:L.
      * subst e. unfold legacy_connect_request in L. destruct (negb _) in L; [discriminate|].
        destruct (resolve aes initiator s) as [s3 r] eqn:R. apply resolve_frame in R as (l & -> & _).
        destruct (negb _) in L; [discriminate|]. injection L as L.
        destruct (handle_connection _ _ _ _ _ _ _ _ _) as [[[s4 c] o2]|] eqn:HC in L; [|discriminate].
        injection L as <- <-. apply handle_connection_init in HC. exact HC.
      * assert (init s2 = init s) as EI.
        { unfold legacy_connect_request in L. destruct (negb _) in L; [now injection L as <-|].
          destruct (resolve aes initiator s) as [s3 r] eqn:R. apply resolve_frame in R as (l & -> & _).
          destruct (negb _) in L; [now injection L as <-|discriminate]. }
        apply sets_connect_init in E. eapply same_init_trans; [|exact E]. now apply same_init_refl.
    + unfold of_effect in S. destruct (receive_connect_complete _ _ _ _ _ _ _) as [s1 o1| |] eqn:E; try discriminate. ok S.
      unfold receive_connect_complete in E. destruct (_ && _) in E; [injection E as <- <-; now apply same_init_refl|].
      assert (forall x, init (fst x) = init s ->
        (let '(s, resolved) := x in
         match handle_connection adv resolved initiator true interval latency supervision (extended_used s) s with
         | Some (s0, _, o) => Next (with_init (with_init_pending None (with_init_enabled false (init s0))) s0) o
         | None => Hangs end) = Next s1 o1 -> same_init_phys s s1) as K.
      { intros [s2 r] EI K. cbn [fst] in EI. destruct (handle_connection _ _ _ _ _ _ _ _ _) as [[[s4 c] o2]|] eqn:HC in K; [|discriminate].
        injection K as <- <-. apply handle_connection_init in HC. destruct HC as (_ & H2 & H3 & H4).
        unfold same_init_phys. le_simpl. rewrite H2, H3, H4, EI. repeat split; intros; auto; discriminate. }
      apply (K _) in E; [exact E|]. destruct (is_rpa _); [|reflexivity].
      destruct (resolve_private_address _ _ _ _). reflexivity.
Qed.

Lemma check_own_init pol peer o s s' ok : check_own aes rng pol peer o s = (s', ok) -> init s' = init s.
Proof.
  unfold check_own. intros H. destruct o; try (injection H as <- <-; reflexivity).
  destruct (is_peer_policy pol); [|injection H as <- <-; reflexivity].
  destruct (generate _ _ _ _ _) as [s1 r] eqn:G. apply generate_frame in G as (l & p & -> & _). injection H as <- <-. reflexivity.
Qed.

Lemma create_connection_phys now s pol peer o p s' st out :
  step now s (Command (CreateConnection pol peer o p)) = Ok s' st out ->
  (exists x, st = Some x /\ x <> SUCCESS /\ same_init_phys s s') \/
  (st = Some SUCCESS /\ in_range p /\ link_rule N.le p /\ init_enabled (init s') = true /\ init_1m (init s') = with_ip_enabled true p
   /\ ip_enabled (init_2m (init s')) = false /\ ip_enabled (init_coded (init s')) = false).
Proof.
  cbn [LeHost.step run_command]. unfold quiet, create_connection, select_legacy. intros S.
  destruct (extended_used s) eqn:EU; [ok S; left; eexists; repeat split; auto; discriminate|].
  le_simpl_in S. destruct (init_enabled (init s)) eqn:IE; [ok S; left; eexists; repeat split; auto; discriminate|].
  destruct (check_connection p) as [x|] eqn:C.
  { ok S. left. exists x. repeat split; auto. unfold check_connection in C.
    repeat match type of C with (if ?b then _ else _) = _ => destruct b; [injection C as <-; discriminate|] end. discriminate. }
  destruct (check_own _ _ _ _ _ _) as [s1 ok1] eqn:O. apply check_own_init in O. le_simpl_in O.
  destruct ok1; cbn [negb] in S.
  - ok S. right. apply check_connection_ok in C as [C1 C2]. le_simpl. repeat split; auto; apply C1.
  - ok S. left. eexists. split; [reflexivity|]. split; [discriminate|]. unfold same_init_phys. rewrite O. auto.
Qed.

Lemma check_connections_status l x : check_connections l = Some x -> x <> SUCCESS.
Proof.
  induction l as [|p l IH]; cbn [check_connections]; [discriminate|].
  destruct (check_connection p) as [y|] eqn:C; [|exact IH]. intros [= <-]. unfold check_connection in C.
  repeat match type of C with (if ?b then _ else _) = _ => destruct b; [injection C as <-; discriminate|] end. discriminate.
Qed.

Lemma ext_create_connection_phys now s pol o peer phys l s' st out :
  step now s (Command (ExtCreateConnection pol o peer phys l)) = Ok s' st out ->
  (exists x, st = Some x /\ x <> SUCCESS /\ same_init_phys s s') \/
  (st = Some SUCCESS /\ Forall (fun p => in_range p /\ link_rule N.le p) l /\ popcount phys = lenN l
   /\ N.land phys 248 = 0 /\ phys <> 0 /\ init_enabled (init s') = true
   /\ (if N.testbit phys 0 then init_1m (init s') = init_phy_at l 0 else ip_enabled (init_1m (init s')) = false)
   /\ (if N.testbit phys 1 then init_2m (init s') = init_phy_at l (if N.testbit phys 0 then 1 else 0)%nat else ip_enabled (init_2m (init s')) = false)
   /\ (if N.testbit phys 2 then init_coded (init s') = init_phy_at l ((if N.testbit phys 0 then 1 else 0) + (if N.testbit phys 1 then 1 else 0))%nat
       else ip_enabled (init_coded (init s')) = false)).
Proof.
  cbn [LeHost.step run_command]. unfold quiet, ext_create_connection, select_extended. intros S.
  destruct (legacy_used s) eqn:EU; [ok S; left; eexists; repeat split; auto; discriminate|].
  le_simpl_in S. destruct (init_enabled (init s)) eqn:IE; [ok S; left; eexists; repeat split; auto; discriminate|].
  destruct (N.eqb_spec (N.land phys 248) 0) as [Z|] in S; cbn [negb] in S; [|ok S; left; eexists; repeat split; auto; discriminate].
  destruct (N.eqb_spec (popcount phys) (lenN l)) as [P|] in S; cbn [negb] in S; [|ok S; left; eexists; repeat split; auto; discriminate].
  destruct (N.eqb_spec phys 0) as [|NZ] in S; [ok S; left; eexists; repeat split; auto; discriminate|].
  destruct (check_connections l) as [x|] eqn:C.
  { ok S. left. exists x. repeat split; auto. exact (check_connections_status _ _ C). }
  destruct (check_own _ _ _ _ _ _) as [s1 ok1] eqn:O. apply check_own_init in O. le_simpl_in O.
  destruct ok1; cbn [negb] in S.
  - ok S. right. apply check_connections_ok in C. le_simpl. repeat split; auto.
    all: destruct (N.testbit phys 0), (N.testbit phys 1), (N.testbit phys 2); reflexivity.
  - ok S. left. eexists. split; [reflexivity|]. split; [discriminate|]. unfold same_init_phys. rewrite O. auto.
Qed.

(** ** The invariant *)

Definition phy_ok (p : init_phy) : Prop := ip_enabled p = true -> in_range p /\ link_rule N.le p.
Definition InitInv (s : le) : Prop := forall k, k < 3 -> phy_ok (init_phy_of (init s) k).

Lemma init_phy_at_ok (l : list init_phy) n : Forall (fun p => in_range p /\ link_rule N.le p) l -> phy_ok (init_phy_at l n).
Proof.
  intros F. unfold init_phy_at. destruct (nth_error l n) as [p|] eqn:E; [|intros X; discriminate X].
  intros _. apply nth_error_In in E. rewrite Forall_forall in F. exact (F _ E).
Qed.
Lemma init_off_ok p : ip_enabled p = false -> phy_ok p.
Proof. intros E X. congruence. Qed.

Lemma three (P : N -> Prop) : P 0 -> P 1 -> P 2 -> forall k, k < 3 -> P k.
Proof.
  intros A B C k K. assert (k = 0 \/ k = 1 \/ k = 2) as [->|[->| ->]] by lia; assumption.
Qed.

Lemma phy_0 i : init_phy_of i 0 = init_1m i. Proof. reflexivity. Qed.
Lemma phy_1 i : init_phy_of i 1 = init_2m i. Proof. reflexivity. Qed.
Lemma phy_2 i : init_phy_of i 2 = init_coded i. Proof. reflexivity. Qed.

Lemma same_phy_of s s' : same_init_phys s s' -> forall k, init_phy_of (init s') k = init_phy_of (init s) k.
Proof. intros (_ & E1 & E2 & E3) k. unfold init_phy_of. rewrite E1, E2, E3. reflexivity. Qed.

Lemma init_inv_step now s o s' st out : InitInv s -> step now s o = Ok s' st out -> InitInv s'.
Proof.
  intros I S.
  assert (SAME : same_init_phys s s' -> InitInv s').
  { intros E k K. rewrite (same_phy_of _ _ E). exact (I k K). }
  destruct (sets_init_phys o) eqn:T; [|exact (SAME (init_phys_kept _ _ _ _ _ _ S T))].
  destruct o as [c|p|]; try discriminate. destruct c; try discriminate.
  - cbn [LeHost.step run_command] in S. unfold reset, loud in S. ok S. refine (three _ _ _ _); intros X; discriminate X.
  - destruct (create_connection_phys _ _ _ _ _ _ _ _ _ S) as [(x & _ & _ & E)|(_ & R & K & _ & E1 & E2 & E3)]; [exact (SAME E)|].
    refine (three _ _ _ _); rewrite ?phy_0, ?phy_1, ?phy_2; [rewrite E1; intros _; exact (conj R K)|now apply init_off_ok|now apply init_off_ok].
  - destruct (ext_create_connection_phys _ _ _ _ _ _ _ _ _ _ S) as [(x & _ & _ & E)|(_ & F & P & Z & NZ & _ & E1 & E2 & E3)]; [exact (SAME E)|].
    refine (three _ _ _ _); rewrite ?phy_0, ?phy_1, ?phy_2.
    + destruct (N.testbit phys 0); [rewrite E1; now apply init_phy_at_ok|now apply init_off_ok].
    + destruct (N.testbit phys 1); [rewrite E2; now apply init_phy_at_ok|now apply init_off_ok].
    + destruct (N.testbit phys 2); [rewrite E3; now apply init_phy_at_ok|now apply init_off_ok].
Qed.

Theorem init_params_valid h s : history h s ->
  forall k, k < 3 -> ip_enabled (init_phy_of (init s) k) = true ->
  in_range (init_phy_of (init s) k) /\ link_rule N.le (init_phy_of (init s) k).
Proof.
  intros H. enough (InitInv s) as I by exact I.
  revert h s H. apply history_invariant.
  - intros a. refine (three _ _ _ _); intros X; discriminate X.
  - intros. eapply init_inv_step; eauto.
Qed.

(** ** The parameters in force are those given *)

Definition init_in (s : le) (k : N) : option (list N) := init_in_force (init_phy_of (init s) k).

Lemma init_in_at (l : list init_phy) n p : nth_error l n = Some p -> init_in_force (init_phy_at l n) = Some (numbers p).
Proof. intros E. unfold init_phy_at. rewrite E. reflexivity. Qed.
Lemma init_in_off p : ip_enabled p = false -> init_in_force p = None.
Proof. intros E. unfold init_in_force. now rewrite E. Qed.

Theorem init_params_given h s : history h s ->
  forall k, k < 3 -> init_in s k = option_map numbers (init_given k h).
Proof.
  induction 1 as [a|h s now o s' st out H IH S].
  - refine (three _ _ _ _); reflexivity.
  - assert (SAME : same_init_phys s s' -> forall k, init_in s' k = init_in s k).
    { intros E k. unfold init_in. now rewrite (same_phy_of _ _ E). }
    destruct (sets_init_phys o) eqn:T.
    + destruct o as [c|p|]; try discriminate. destruct c; try discriminate; cbn [init_given what status_of].
      * cbn [LeHost.step run_command] in S. unfold reset, loud in S. ok S. refine (three _ _ _ _); reflexivity.
      * destruct (create_connection_phys _ _ _ _ _ _ _ _ _ S) as [(x & -> & NS & E)|(-> & R & K & _ & E1 & E2 & E3)].
        -- intros k K. rewrite (SAME E), IH by exact K. destruct x; try congruence; reflexivity.
        -- refine (three _ _ _ _); unfold init_in; rewrite ?phy_0, ?phy_1, ?phy_2;
             [rewrite E1; destruct p; reflexivity|now apply init_in_off|now apply init_in_off].
      * destruct (ext_create_connection_phys _ _ _ _ _ _ _ _ _ _ S) as [(x & -> & NS & E)|(-> & F & P & Z & NZ & _ & E1 & E2 & E3)].
        -- intros k K. rewrite (SAME E), IH by exact K. destruct x; try congruence; reflexivity.
        -- refine (three _ _ _ _); unfold init_in; rewrite ?phy_0, ?phy_1, ?phy_2.
           ++ destruct (N.testbit phys 0) eqn:B; [|rewrite (supplied_no _ _ _ B); now apply init_in_off].
              destruct (supplied_0 phys l P B) as (x & -> & X). rewrite E1. exact (init_in_at _ _ _ X).
           ++ destruct (N.testbit phys 1) eqn:B; [|rewrite (supplied_no _ _ _ B); now apply init_in_off].
              destruct (supplied_1 phys l P B) as (x & -> & X). rewrite E2. exact (init_in_at _ _ _ X).
           ++ destruct (N.testbit phys 2) eqn:B; [|rewrite (supplied_no _ _ _ B); now apply init_in_off].
              destruct (supplied_2 phys l P B) as (x & -> & X). rewrite E3. exact (init_in_at _ _ _ X).
    + intros k K. rewrite (SAME (init_phys_kept _ _ _ _ _ _ S T)), IH by exact K.
      destruct o as [[]| |]; try discriminate T; reflexivity.
Qed.

(** ** Connection requests *)

Lemma connect_to_sends adv target d s s' out a b i lat sup :
  connect_to aes rng adv target d s = Some (s', out) -> In (Sent (AirConnect a b i lat sup)) out ->
  i = ip_interval_max (init_1m (init s)) /\ lat = ip_latency (init_1m (init s)) /\ sup = ip_supervision (init_1m (init s)) /\ b = adv.
Proof.
  unfold connect_to. intros H I. destruct (resolve aes adv s) as [s1 r] eqn:R. apply resolve_frame in R as (l & -> & _).
  destruct (negb _) in H; [injection H as <- <-; destruct I|].
  destruct (_ && _) in H; [injection H as <- <-; destruct I|].
  destruct (_ && _) in H; [injection H as <- <-; destruct I|].
  destruct (generate _ _ _ _ _) as [s1 r1] eqn:G. apply generate_frame in G as (l1 & p1 & -> & _).
  destruct (initiating_address _ _) as [x|]; [|discriminate]. injection H as <- <-.
  destruct I as [I|[]]. le_simpl_in I. injection I as <- <- <- <- <-. auto.
Qed.

(** The scanner does not send connection requests *)
Definition no_connect (x : output) : Prop := match x with Sent (AirConnect _ _ _ _ _) => False | _ => True end.

Lemma send_scan_no_connect now adv res b1 b2 b3 b4 x y s s' o :
  send_scan_request aes rng now adv res b1 b2 b3 b4 x y s = Some (s', o) -> Forall no_connect o.
Proof.
  unfold send_scan_request. intros H. destruct (_ || _) in H; [injection H as <- <-; constructor|].
  destruct (generate _ _ _ _ _) as [s1 r]. destruct (scanning_address _ _); [|discriminate]. injection H as <- <-.
  outs. exact I.
Qed.
Lemma scan_legacy_no_connect now adv tgt t d s s' o :
  scan_legacy_pdu aes rng now adv tgt t d s = Some (s', o) -> Forall no_connect o.
Proof.
  unfold scan_legacy_pdu. intros H.
  destruct (negb _) in H; [injection H as <- <-; constructor|].
  destruct (resolve aes adv s) as [s1 r]. destruct (negb _) in H; [injection H as <- <-; constructor|].
  destruct (if match t with PDU_DIRECT => true | _ => false end then _ else _); [|injection H as <- <-; constructor].
  destruct (filter_duplicate _ _) as [s2 f].
  destruct (send_scan_request _ _ _ _ _ _ _ _ _ _ _ _) as [[s3 o3]|] eqn:S; [|discriminate].
  injection H as <- <-. apply send_scan_no_connect in S. outs; try exact S; exact I.
Qed.
Lemma scan_extended_no_connect now adv tgt c sc dir sid pw pr se pi d s s' o :
  scan_extended_pdu aes rng cfg now adv tgt c sc dir sid pw pr se pi d s = Some (s', o) -> Forall no_connect o.
Proof.
  unfold scan_extended_pdu. intros H.
  do 4 (destruct (_ : bool) in H at 1; [injection H as <- <-; constructor|]).
  destruct (resolve aes adv s) as [s1 r]. destruct (negb _) in H; [injection H as <- <-; constructor|].
  destruct (if dir then _ else _); [|injection H as <- <-; constructor].
  destruct (filter_duplicate _ _) as [s2 f].
  destruct (send_scan_request _ _ _ _ _ _ _ _ _ _ _ _) as [[s3 o3]|] eqn:S; [|discriminate].
  injection H as <- <-. apply send_scan_no_connect in S.
  apply Forall_app; split; [|exact S]. apply forall_if. intros B.
  apply Forall_forall. intros x IN. apply in_map_iff in IN as (f' & <- & _). exact I.
Qed.

(** Only the initiator sends connection requests, with the parameters of the 1M PHY *)
Theorem connect_request_params now s o s' st out a b i lat sup :
  step now s o = Ok s' st out -> In (Sent (AirConnect a b i lat sup)) out ->
  init_enabled (init s) = true /\
  i = ip_interval_max (init_1m (init s)) /\ lat = ip_latency (init_1m (init s)) /\ sup = ip_supervision (init_1m (init s)).
Proof.
  intros S I. pose proof (step_fine _ _ _ _ _ _ _ _ _ S) as F. rewrite Forall_forall in F. apply F in I as M. cbn [fine] in M.
  destruct o as [[]|p|]; try discriminate M. destruct p; try discriminate M; cbn [LeHost.step receive] in S;
    unfold of_effect, receive_legacy_pdu, receive_extended_pdu in S;
    destruct (then_also _ _) as [s1 o1| |] eqn:E in S; try discriminate S; ok S;
    apply then_also_inv in E; destruct E as (s2 & o2 & o3 & E1 & E2 & ->).
  - apply scan_legacy_no_connect in E1 as NC. apply scan_legacy_touched in E1 as (? & ? & ? & ? & -> & _).
    apply in_app_iff in I as [I|I]; [rewrite Forall_forall in NC; destruct (NC _ I)|].
    unfold connect_legacy_pdu in E2. le_simpl_in E2. destruct (init_enabled (init s)) eqn:EN; cbn [negb] in E2; [|injection E2 as <- <-; destruct I].
    destruct (_ || _) in E2; [injection E2 as <- <-; destruct I|].
    destruct (connect_to_sends _ _ _ _ _ _ _ _ _ _ _ E2 I) as (-> & -> & -> & _). auto.
  - apply scan_extended_no_connect in E1 as NC. apply scan_extended_touched in E1 as (? & ? & ? & ? & -> & _).
    apply in_app_iff in I as [I|I]; [rewrite Forall_forall in NC; destruct (NC _ I)|].
    unfold connect_extended_pdu in E2. le_simpl_in E2. destruct (init_enabled (init s)) eqn:EN; cbn [negb] in E2; [|injection E2 as <- <-; destruct I].
    destruct (negb _) in E2; [injection E2 as <- <-; destruct I|].
    destruct (_ || _) in E2; [injection E2 as <- <-; destruct I|].
    destruct (connect_to_sends _ _ _ _ _ _ _ _ _ _ _ E2 I) as (-> & -> & -> & _). auto.
Qed.

Lemma connect_request_initiating now s o s' st out a b i lat sup :
  step now s o = Ok s' st out -> In (Sent (AirConnect a b i lat sup)) out -> init_enabled (init s) = true.
Proof. intros S I. apply (connect_request_params now s o s' st out a b i lat sup S I). Qed.

Theorem connect_request_given h s now o s' st out a b i lat sup p :
  history h s -> step now s o = Ok s' st out -> In (Sent (AirConnect a b i lat sup)) out ->
  init_given 0 h = Some p ->
  i = ip_interval_max p /\ lat = ip_latency p /\ sup = ip_supervision p.
Proof.
  intros H S I G. destruct (connect_request_params _ _ _ _ _ _ _ _ _ _ _ S I) as (_ & -> & -> & ->).
  pose proof (init_params_given _ _ H 0 ltac:(lia)) as E. rewrite G in E. unfold init_in, init_in_force in E. rewrite phy_0 in E.
  destruct (ip_enabled _); [|discriminate]. cbn [option_map] in E. unfold numbers in E. injection E as _ _ _ E1 E2 E3 _ _. auto.
Qed.
End WithController.
