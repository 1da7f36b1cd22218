From Verif Require Import Prelude H4 H4Spec.
Local Open Scope N_scope.

Definition bindo (o : outcome) (k : parser -> outcome) : outcome :=
  match o with
  | Done _ p out =>
      match k p with
      | Done r p' out' => Done r p' (out ++ out')
      | o' => o'
      end
  | o' => o'
  end.

Lemma run_cons p c cs : run p (c :: cs) = bindo (consume p c) (fun p' => run p' cs).
Proof. cbn. destruct (consume p c); reflexivity. Qed.

Lemma bindo_assoc o k1 k2 :
  bindo (bindo o k1) k2 = bindo o (fun p => bindo (k1 p) k2).
Proof.
  destruct o as [r p out| |]; cbn; try reflexivity.
  destruct (k1 p) as [r1 p1 out1| |]; cbn; try reflexivity.
  destruct (k2 p1) as [r2 p2 out2| |]; cbn; try reflexivity.
  now rewrite app_assoc.
Qed.

Lemma bindo_ext o k1 k2 : (forall p, k1 p = k2 p) -> bindo o k1 = bindo o k2.
Proof. intros H. destruct o; cbn; try reflexivity. now rewrite H. Qed.

Lemma run_app p c1 c2 : run p (c1 ++ c2) = bindo (run p c1) (fun p' => run p' c2).
Proof.
  revert p; induction c1 as [|c c1 IH]; intros p.
  - cbn [app run bindo]. destruct (run p c2); reflexivity.
  - cbn [app]. rewrite !run_cons, bindo_assoc. now apply bindo_ext.
Qed.

Definition singles (l : list N) : list (list N) := map (fun x => [x]) l.

Lemma singles_app a b : singles (a ++ b) = singles a ++ singles b.
Proof. apply map_app. Qed.

Lemma lenN_pos {A} (l : list A) : l <> [] -> 1 <= lenN l.
Proof. destruct l; [congruence|]. rewrite lenN_cons; lia. Qed.

(** Splitting one read in two. *)
Lemma consume_app p a b :
  a <> [] -> b <> [] -> lenN (a ++ b) <= bytes_requested p ->
  consume p (a ++ b) = bindo (consume p a) (fun p' => consume p' b).
Proof.
  intros Ha Hb Hlen.
  pose proof (lenN_pos a Ha) as La. pose proof (lenN_pos b Hb) as Lb.
  rewrite lenN_app in Hlen.
  destruct a as [|x a']; [congruence|]. destruct b as [|y b']; [congruence|].
  unfold bytes_requested in Hlen.
  destruct (st p) eqn:Est; try lia.
  - (* preamble *)
    unfold consume at 1. cbn [app].
    replace (bytes_requested p <? lenN (x :: a' ++ y :: b')) with false
      by (unfold bytes_requested; rewrite Est; symmetry; apply N.ltb_ge;
          change (x :: a' ++ y :: b') with ((x :: a') ++ y :: b'); rewrite lenN_app; lia).
    rewrite Est.
    unfold consume at 1.
    replace (bytes_requested p <? lenN (x :: a')) with false
      by (unfold bytes_requested; rewrite Est; symmetry; apply N.ltb_ge; lia).
    rewrite Est.
    replace (bytes_wanted p - lenN (x :: a') =? 0) with false
      by (symmetry; apply N.eqb_neq; lia).
    cbn [bindo]. unfold consume, bytes_requested. cbn [st bytes_wanted].
    replace (bytes_wanted p - lenN (x :: a') <? lenN (y :: b')) with false
      by (symmetry; apply N.ltb_ge; lia).
    cbn [packet hci_packet_type packet_type enable_recovery].
    change (x :: a' ++ y :: b') with ((x :: a') ++ y :: b').
    rewrite app_assoc, lenN_app.
    rewrite <- N.sub_add_distr.
    destruct (bytes_wanted p - (lenN (x :: a') + lenN (y :: b')) =? 0);
      [|reflexivity].
    destruct (packet_length_for_type _ _) as [sz|]; [|reflexivity].
    destruct (sz =? 0); [|reflexivity].
    unfold finish; destruct (on_packet_ready _ _); reflexivity.
  - (* payload *)
    unfold consume at 1. cbn [app].
    replace (bytes_requested p <? lenN (x :: a' ++ y :: b')) with false
      by (unfold bytes_requested; rewrite Est; symmetry; apply N.ltb_ge;
          change (x :: a' ++ y :: b') with ((x :: a') ++ y :: b'); rewrite lenN_app; lia).
    rewrite Est.
    unfold consume at 1.
    replace (bytes_requested p <? lenN (x :: a')) with false
      by (unfold bytes_requested; rewrite Est; symmetry; apply N.ltb_ge; lia).
    rewrite Est.
    replace (bytes_wanted p - lenN (x :: a') =? 0) with false
      by (symmetry; apply N.eqb_neq; lia).
    cbn [bindo]. unfold consume, bytes_requested. cbn [st bytes_wanted].
    replace (bytes_wanted p - lenN (x :: a') <? lenN (y :: b')) with false
      by (symmetry; apply N.ltb_ge; lia).
    cbn [packet hci_packet_type packet_type enable_recovery].
    change (x :: a' ++ y :: b') with ((x :: a') ++ y :: b').
    rewrite app_assoc, lenN_app.
    rewrite <- N.sub_add_distr.
    destruct (bytes_wanted p - (lenN (x :: a') + lenN (y :: b')) =? 0);
      [|reflexivity].
    unfold finish; destruct (on_packet_ready _ _); reflexivity.
Qed.

Lemma consume_nonempty_true p c r p' o : c <> [] -> consume p c = Done r p' o -> r = true.
Proof.
  intros Hc. destruct c as [|b c]; [congruence|]. cbn.
  destruct (_ <? _); [discriminate|].
  destruct (st p); cbn.
  all: repeat match goal with
    | |- context [if ?x then _ else _] => destruct x
    | |- context [match ?x with Some _ => _ | None => _ end] => destruct x
    end; unfold finish; try destruct (on_packet_ready _ _); try discriminate;
    intros H; injection H; congruence.
Qed.

Lemma run_single p c : c <> [] -> run p [c] = consume p c.
Proof.
  intros Hc. rewrite run_cons. destruct (consume p c) as [r p' o| |] eqn:E; cbn; try reflexivity.
  apply consume_nonempty_true in E; [|assumption]. subst. now rewrite app_nil_r.
Qed.

(** After part of a read, the parser still accepts the rest of it. *)
Lemma requested_after p a b r p' o :
  a <> [] -> b <> [] -> lenN (a ++ b) <= bytes_requested p ->
  consume p a = Done r p' o -> lenN b <= bytes_requested p' /\ 1 <= bytes_requested p'.
Proof.
  intros Ha Hb Hlen E.
  pose proof (lenN_pos a Ha) as La. pose proof (lenN_pos b Hb) as Lb.
  rewrite lenN_app in Hlen.
  destruct a as [|x a']; [congruence|].
  unfold bytes_requested in Hlen.
  destruct (st p) eqn:Est; try lia.
  all: unfold consume in E;
    replace (bytes_requested p <? lenN (x :: a')) with false in E
      by (unfold bytes_requested; rewrite Est; symmetry; apply N.ltb_ge; lia);
    rewrite Est in E;
    replace (bytes_wanted p - lenN (x :: a') =? 0) with false in E
      by (symmetry; apply N.eqb_neq; lia);
    injection E as <- <- <-; unfold bytes_requested; cbn; lia.
Qed.

(** One read is the same as reading byte by byte. *)
Lemma consume_bytewise p c :
  c <> [] -> lenN c <= bytes_requested p -> consume p c = run p (singles c).
Proof.
  revert p; induction c as [|x c IH]; intros p Hc Hlen; [congruence|].
  destruct c as [|y c].
  - cbn [singles map]. now rewrite run_single by congruence.
  - change (x :: y :: c) with ([x] ++ y :: c) at 1.
    rewrite consume_app by (congruence || exact Hlen).
    change (singles (x :: y :: c)) with ([x] :: singles (y :: c)).
    rewrite run_cons.
    destruct (consume p [x]) as [r p' o| |] eqn:E; cbn [bindo]; try reflexivity.
    rewrite IH; [reflexivity|congruence|].
    apply (requested_after p [x] (y :: c) r p' o) in E as [E _];
      [exact E|discriminate|discriminate|exact Hlen].
Qed.

Lemma respects_bytewise p cs :
  respects p cs = true -> run p cs = run p (singles (concat cs)).
Proof.
  revert p; induction cs as [|c cs IH]; intros p H; [reflexivity|].
  cbn [respects] in H. bsplit.
  cbn [concat]. rewrite singles_app, run_app, run_cons.
  rewrite <- consume_bytewise.
  - destruct (consume p c) as [r p' o| |]; cbn; try reflexivity. now rewrite IH.
  - intros ->. rewrite lenN_nil in *. lia.
  - assumption.
Qed.

(** Two ways of splitting the same stream are equivalent. *)
Lemma chunking_independent p cs1 cs2 :
  respects p cs1 = true -> respects p cs2 = true -> concat cs1 = concat cs2 ->
  run p cs1 = run p cs2.
Proof. intros H1 H2 E. rewrite (respects_bytewise p cs1 H1), (respects_bytewise p cs2 H2).
  now rewrite E. Qed.

(** ---- Round trip ---- *)

Definition preamble_of (k : hci_packet) : list N :=
  match k with
  | Command op0 op1 params => [op0; op1; lenN params]
  | Acl h0 h1 data => [h0; h1; lenN data mod 256; lenN data / 256]
  | Sco h0 h1 data => [h0; h1; lenN data]
  | Event code params => [code; lenN params]
  | Iso h0 h1 flags data => [h0; h1; lenN data mod 256; lenN data / 256 + 16 * flags]
  end.

Definition payload_of (k : hci_packet) : list N :=
  match k with
  | Command _ _ d | Acl _ _ d | Sco _ _ d | Event _ d | Iso _ _ _ d => d
  end.

Lemma body_split k : body k = preamble_of k ++ payload_of k.
Proof. destruct k; reflexivity. Qed.

Lemma length_field k : wf_packet k = true ->
  packet_length_for_type (indicator k) (preamble_of k) = Some (lenN (payload_of k)).
Proof.
  assert (L : forall n f : N, n < 65536 -> n / 256 < 16 \/ f = 0 ->
                N.lor (n mod 256) (N.shiftl (n / 256) 8) = n).
  { intros n f Hn _. rewrite lor_shiftl_disjoint by (change (2 ^ 8) with 256; lia).
    change (2 ^ 8) with 256. lia. }
  destruct k; intros W; cbn [wf_packet] in W; bsplit;
    unfold packet_length_for_type; cbn [indicator preamble_of payload_of];
    try reflexivity.
  - change (nth_error _ (N.to_nat 2)) with (Some 2%nat). cbn [nth_error Nat.add].
    change (2 =? PT_ACL) with true. cbn match.
    f_equal. apply (L _ 0); auto.
  - change (nth_error _ (N.to_nat 5)) with (Some 2%nat). cbn [nth_error Nat.add].
    change (5 =? PT_ACL) with false. change (5 =? PT_ISO) with true. cbn match.
    f_equal.
    change 15 with (N.ones 4). rewrite N.land_ones. change (2 ^ 4) with 16.
    replace ((lenN data / 256 + 16 * flags) mod 16) with (lenN data / 256).
    + apply (L _ 0); auto; lia.
    + rewrite N.mul_comm, N.mod_add by lia. symmetry. apply N.mod_small. lia.
Qed.

Lemma on_ready_deliver k : on_packet_ready (indicator k) (body k) = Some (deliver k).
Proof. destruct k; reflexivity. Qed.

Lemma roundtrip_one p k : ready p -> wf_packet k = true ->
  exists p', run p (singles (encode k)) = Done true p' [deliver k] /\ ready p'
             /\ enable_recovery p' = enable_recovery p /\ hci_packet_type p' = PT_UNKNOWN.
Proof.
  intros R W. unfold encode.
  change (singles (indicator k :: body k)) with ([indicator k] :: singles (body k)).
  rewrite run_cons.
  assert (Hpre : exists n, preamble_size (indicator k) = Some n /\ n = lenN (preamble_of k)
                            /\ 1 <= n)
    by (destruct k; eexists; (split; [reflexivity|split; [reflexivity|lia]])).
  destruct Hpre as (n & Hn & En & Hpos).
  assert (Htype : consume p [indicator k] =
    Done true {| hci_packet_type := indicator k; st := HCI_PREAMBLE;
                 packet_type := indicator k; packet := []; bytes_wanted := n;
                 enable_recovery := enable_recovery p |} []).
  { unfold consume, bytes_requested. rewrite R.
    replace (1 <? lenN [indicator k]) with false by reflexivity.
    rewrite Hn. destruct k; reflexivity. }
  rewrite Htype. cbn [bindo].
  set (p1 := {| hci_packet_type := indicator k |}).
  rewrite body_split, singles_app, run_app.
  rewrite <- consume_bytewise.
  2: { destruct k; cbn; congruence. }
  2: { unfold bytes_requested, p1; cbn. lia. }
  unfold consume at 1.
  destruct (preamble_of k) as [|b0 rest] eqn:Epre; [destruct k; discriminate|].
  replace (bytes_requested p1 <? lenN (b0 :: rest)) with false
    by (unfold bytes_requested, p1; cbn [st bytes_wanted]; symmetry; apply N.ltb_ge; lia).
  unfold p1. cbn [st packet bytes_wanted hci_packet_type packet_type enable_recovery app].
  replace (n - lenN (b0 :: rest) =? 0) with true by (symmetry; apply N.eqb_eq; lia).
  rewrite <- Epre. rewrite length_field by assumption.
  destruct (lenN (payload_of k) =? 0) eqn:Epl.
  - apply N.eqb_eq in Epl.
    assert (Enil : payload_of k = []).
    { destruct (payload_of k); [reflexivity|]. rewrite lenN_cons in Epl. lia. }
    assert (Eb : preamble_of k = body k) by (rewrite body_split, Enil, app_nil_r; reflexivity).
    rewrite Enil, Eb. unfold finish. rewrite on_ready_deliver.
    cbn. eexists; repeat split.
  - apply N.eqb_neq in Epl. cbn [bindo].
    rewrite <- consume_bytewise.
    2: { intros E. rewrite E, lenN_nil in Epl. lia. }
    2: { unfold bytes_requested; cbn. lia. }
    unfold consume.
    destruct (payload_of k) as [|d0 drest] eqn:Ed; [rewrite lenN_nil in Epl; lia|].
    unfold bytes_requested. cbn [st bytes_wanted packet hci_packet_type packet_type enable_recovery].
    rewrite N.ltb_irrefl, N.sub_diag. change (0 =? 0) with true. cbn match.
    rewrite <- Ed, <- body_split. unfold finish. rewrite on_ready_deliver.
    cbn. eexists; repeat split.
Qed.

Lemma roundtrip_bytes ks : forall p, ready p -> forallb wf_packet ks = true ->
  exists p', run p (singles (concat (map encode ks))) = Done true p' (map deliver ks)
             /\ ready p' /\ enable_recovery p' = enable_recovery p.
Proof.
  induction ks as [|k ks IH]; intros p R W.
  - exists p. cbn. auto.
  - cbn [forallb] in W. bsplit.
    cbn [map concat]. rewrite singles_app, run_app.
    destruct (roundtrip_one p k R) as (p1 & E1 & R1 & Er & _); [assumption|].
    rewrite E1. cbn [bindo].
    destruct (IH p1 R1) as (p2 & E2 & R2 & Er2); [assumption|].
    rewrite E2. exists p2. split; [reflexivity|]. split; [assumption|congruence].
Qed.

Lemma roundtrip p ks chunks :
  ready p -> forallb wf_packet ks = true ->
  respects p chunks = true -> concat chunks = concat (map encode ks) ->
  exists p', run p chunks = Done true p' (map deliver ks) /\ ready p'.
Proof.
  intros R W C E. rewrite respects_bytewise by assumption. rewrite E.
  destruct (roundtrip_bytes ks p R W) as (p' & E' & R' & _). eauto.
Qed.

(** ---- Reachable states: invariant, progress ---- *)

Definition Inv (p : parser) : Prop :=
  match st p with
  | HCI_TYPE => True
  | HCI_PREAMBLE =>
      exists n, valid_indicator (hci_packet_type p) = true /\
        preamble_size (hci_packet_type p) = Some n /\
        lenN (packet p) + bytes_wanted p = n /\ 1 <= bytes_wanted p
  | HCI_PAYLOAD =>
      valid_indicator (hci_packet_type p) = true /\ 1 <= bytes_wanted p
  | HCI_RECOVERY =>
      hci_packet_type p = PT_COMMAND /\ bytes_wanted p = 1 /\ lenN (packet p) < 4
  end.

Lemma inv_init r : Inv (init r).
Proof. exact I. Qed.

Lemma valid_cases t : valid_indicator t = true -> t = 1 \/ t = 2 \/ t = 3 \/ t = 4 \/ t = 5.
Proof. unfold valid_indicator; intros H; bsplit; lia. Qed.

Lemma type_test_valid b :
  ((b =? PT_ACL) || (b =? PT_SCO) || (b =? PT_COMMAND) || (b =? PT_EVENT) || (b =? PT_ISO))%bool
  = valid_indicator b.
Proof.
  unfold valid_indicator, PT_ACL, PT_SCO, PT_COMMAND, PT_EVENT, PT_ISO.
  destruct (N.leb_spec 1 b), (N.leb_spec b 5); cbn;
    repeat match goal with |- context [b =? ?n] => destruct (N.eqb_spec b n) end; cbn; lia.
Qed.

Lemma on_ready_valid t pkt : valid_indicator t = true ->
  exists d, on_packet_ready t pkt = Some d.
Proof.
  intros H. apply valid_cases in H.
  destruct H as [->|[->|[->|[->| ->]]]]; eexists; reflexivity.
Qed.

Lemma finish_ok t pt pkt w r : valid_indicator t = true ->
  exists p' d, finish t pt pkt w r = Done true p' [d] /\ ready p' /\ enable_recovery p' = r.
Proof.
  intros H. destruct (on_ready_valid t pkt H) as [d Hd].
  unfold finish; rewrite Hd. eexists _, d. repeat split.
Qed.

Lemma list_len_ge {A} (l : list A) n : lenN l = N.of_nat n -> length l = n.
Proof. unfold lenN; lia. Qed.

Lemma plen_defined t l n : valid_indicator t = true -> preamble_size t = Some n ->
  lenN l = n -> exists sz, packet_length_for_type t l = Some sz.
Proof.
  intros V P L. apply valid_cases in V.
  destruct V as [->|[->|[->|[->| ->]]]]; injection P as <-;
    (apply (list_len_ge _ 2) in L || apply (list_len_ge _ 3) in L || apply (list_len_ge _ 4) in L);
    repeat (destruct l as [|? l]; [discriminate|]); destruct l; try discriminate;
    cbn; eexists; reflexivity.
Qed.

Lemma consume_inv p c : Inv p -> c <> [] -> lenN c <= bytes_requested p ->
  (enable_recovery p = true -> exists p' o, consume p c = Done true p' o) /\
  (forall r p' o, consume p c = Done r p' o ->
      Inv p' /\ enable_recovery p' = enable_recovery p /\ (length o <= 1)%nat) /\
  consume p c <> Undefined.
Proof.
  intros HI Hc Hlen.
  destruct c as [|b c]; [congruence|].
  unfold consume.
  replace (bytes_requested p <? lenN (b :: c)) with false by (symmetry; apply N.ltb_ge; lia).
  unfold Inv in HI. unfold bytes_requested in Hlen.
  pose proof (lenN_pos (b :: c) Hc) as Lc.
  destruct (st p) eqn:Est.
  - rewrite type_test_valid. destruct (valid_indicator b) eqn:Vb.
    + pose proof (valid_cases _ Vb) as Hb.
      assert (exists n, preamble_size b = Some n /\ 1 <= n) as (n & Hn & Hn1)
        by (destruct Hb as [->|[->|[->|[->| ->]]]]; eexists; (split; [reflexivity|lia])).
      rewrite Hn. split; [eauto|]. split; [|discriminate].
      intros r p' o E. injection E as <- <- <-. cbn. repeat split; auto.
      exists n. repeat split; auto.
    + destruct (enable_recovery p) eqn:Er; cbn.
      * split; [eauto|]. split; [|discriminate].
        intros r p' o E. injection E as <- <- <-. cbn. repeat split; auto.
      * split; [discriminate|]. split; [intros; discriminate|discriminate].
  - destruct HI as (n & V & P & L & W).
    destruct (bytes_wanted p - lenN (b :: c) =? 0) eqn:Ew; bsplit.
    + destruct (plen_defined _ (packet p ++ b :: c) n V P) as [sz Hsz].
      { rewrite lenN_app. lia. }
      rewrite Hsz. destruct (sz =? 0) eqn:Esz; bsplit.
      * destruct (finish_ok (hci_packet_type p) (packet_type p) (packet p ++ b :: c) 0
                    (enable_recovery p) V) as (p' & d & E & R & Er).
        rewrite E. split; [eauto|]. split; [|discriminate].
        intros r p'' o E'. injection E' as <- <- <-.
        unfold Inv. rewrite R. cbn. auto.
      * split; [eauto|]. split; [|discriminate].
        intros r p' o E. injection E as <- <- <-. cbn. repeat split; auto. lia.
    + split; [eauto|]. split; [|discriminate].
      intros r p' o E. injection E as <- <- <-. cbn. repeat split; auto.
      exists n. rewrite lenN_app. repeat split; auto; lia.
  - destruct HI as (V & W).
    destruct (bytes_wanted p - lenN (b :: c) =? 0) eqn:Ew; bsplit.
    + destruct (finish_ok (hci_packet_type p) (packet_type p) (packet p ++ b :: c) 0
                    (enable_recovery p) V) as (p' & d & E & R & Er).
      rewrite E. split; [eauto|]. split; [|discriminate].
      intros r p'' o E'. injection E' as <- <- <-.
      unfold Inv. rewrite R. cbn. auto.
    + split; [eauto|]. split; [|discriminate].
      intros r p' o E. injection E as <- <- <-. cbn. repeat split; auto. lia.
  - destruct HI as (T & W & L).
    assert (Hoff : (length (packet p) < 4)%nat) by (unfold lenN in L; lia).
    destruct (nth_error reset_command (length (packet p))) as [rb|] eqn:Erb.
    2: { apply nth_error_None in Erb. cbn in Erb. lia. }
    set (pkt' := if b =? rb then packet p ++ [b] else if b =? 1 then [b] else []).
    destruct (lenN pkt' =? 4) eqn:E4.
    + rewrite T. destruct (finish_ok PT_COMMAND (packet_type p) (tl pkt') 0 (enable_recovery p) eq_refl)
        as (p' & d & E & R & Er).
      rewrite E. split; [eauto|]. split; [|discriminate].
      intros r p'' o E'. injection E' as <- <- <-.
      unfold Inv. rewrite R. cbn. auto.
    + rewrite W. change (1 =? 0) with false. cbn match.
      split; [eauto|]. split; [|discriminate].
      intros r p' o E. injection E as <- <- <-. cbn. bsplit. repeat split; auto.
      unfold pkt' in *. destruct (b =? rb).
      * rewrite lenN_app, lenN_cons, lenN_nil in *. lia.
      * destruct (b =? 1); rewrite ?lenN_cons, lenN_nil; lia.
Qed.

Lemma respects_inv p chunks : Inv p -> enable_recovery p = true -> respects p chunks = true ->
  exists p' o, run p chunks = Done true p' o /\ Inv p' /\ enable_recovery p' = true.
Proof.
  revert p; induction chunks as [|c cs IH]; intros p HI Hr Hc.
  - exists p, []. cbn. auto.
  - cbn [respects] in Hc. bsplit.
    assert (Hne : c <> []) by (intros ->; rewrite lenN_nil in *; lia).
    destruct (consume_inv p c HI Hne) as (K1 & K2 & _); [assumption|].
    destruct (K1 Hr) as (p1 & o1 & E1).
    rewrite run_cons, E1. cbn [bindo]. rewrite E1 in *.
    destruct (K2 _ _ _ eq_refl) as (HI1 & Hr1 & _).
    destruct (IH p1 HI1) as (p2 & o2 & E2 & HI2 & Hr2); [congruence|assumption|].
    rewrite E2. eauto.
Qed.

Lemma respects_no_ub p chunks : Inv p -> respects p chunks = true ->
  run p chunks <> Undefined /\ (forall r p' o, run p chunks = Done r p' o -> Inv p').
Proof.
  revert p; induction chunks as [|c cs IH]; intros p HI Hc.
  - cbn. split; [discriminate|]. intros r p' o E; injection E as <- <- <-. assumption.
  - cbn [respects] in Hc. bsplit.
    assert (Hne : c <> []) by (intros ->; rewrite lenN_nil in *; lia).
    destruct (consume_inv p c HI Hne) as (_ & K2 & K3); [assumption|].
    rewrite run_cons.
    destruct (consume p c) as [r1 p1 o1| |] eqn:E1; cbn [bindo].
    + destruct (K2 _ _ _ eq_refl) as (HI1 & _).
      destruct (IH p1 HI1) as (K4 & K5); [assumption|].
      destruct (run p1 cs) as [r2 p2 o2| |] eqn:E2; [|split; discriminate|congruence].
      split; [discriminate|]. intros r p' o E; injection E as <- <- <-. eauto.
    + split; discriminate.
    + congruence.
Qed.

Lemma inv_requests p : Inv p -> 1 <= bytes_requested p.
Proof.
  unfold Inv, bytes_requested. intros H.
  destruct (st p); [lia| | |lia].
  - destruct H as (n & _ & _ & _ & H); exact H.
  - destruct H as (_ & H); exact H.
Qed.

(** ---- Recovery: what has been read and not yet delivered ---- *)

Definition ends_with (q l : list N) : Prop := exists j, l = j ++ q.

(** [q] is the longest proper prefix of the reset command that ends [junk]. *)
Definition kmp (junk q : list N) : Prop :=
  (q = [] \/ q = [1] \/ q = [1; 3] \/ q = [1; 3; 12]) /\
  ends_with q junk /\
  (ends_with [1; 3; 12] junk -> q = [1; 3; 12]) /\
  (ends_with [1; 3] junk -> q = [1; 3]) /\
  (ends_with [1] junk -> q = [1]).

Lemma ends_with_snoc q x junk b : ends_with (q ++ [x]) (junk ++ [b]) <-> ends_with q junk /\ b = x.
Proof.
  split.
  - intros [j E]. rewrite app_assoc in E. apply app_inj_tail in E as [E1 E2].
    subst. split; [exists j|]; reflexivity.
  - intros [[j ->] ->]. exists j. now rewrite app_assoc.
Qed.

Lemma ends_nil junk : ends_with [] junk.
Proof. exists junk. now rewrite app_nil_r. Qed.

Lemma contains_snoc junk b :
  contains_reset (junk ++ [b]) <-> contains_reset junk \/ (ends_with [1; 3; 12] junk /\ b = 0).
Proof.
  unfold contains_reset, hci_reset. split.
  - intros (a & c & E).
    destruct c as [|c0 c'] using rev_ind.
    + right. change ([1; 3; 12; 0] ++ []) with ([1; 3; 12] ++ [0]) in E.
      apply (ends_with_snoc [1;3;12] 0). exists a. exact E.
    + left. clear IHc'. rewrite !app_assoc in E. apply app_inj_tail in E as [E _].
      exists a, c'. now rewrite <- app_assoc in E.
  - intros [(a & c & E)|[[a E] ->]].
    + exists a, (c ++ [b]). rewrite E, <- !app_assoc. reflexivity.
    + exists a, []. rewrite E, <- !app_assoc. reflexivity.
Qed.

Lemma kmp_nil : kmp [] [].
Proof.
  assert (Hne : forall q x, ends_with (q ++ [x]) (@nil N) -> False)
    by (intros q x [j E]; rewrite app_assoc in E; destruct (j ++ q); discriminate).
  split; [auto|]. split; [apply ends_nil|].
  split; [intros H; exfalso; eapply (Hne [1;3]); exact H|].
  split; [intros H; exfalso; eapply (Hne [1]); exact H|].
  intros H; exfalso; eapply (Hne []); exact H.
Qed.

(** The matcher of the recovery state, one byte. *)
Definition recover (q : list N) (b : N) : list N :=
  match nth_error reset_command (length q) with
  | Some r => if b =? r then q ++ [b] else if b =? 1 then [b] else []
  | None => []
  end.

Lemma kmp_step junk q b : kmp junk q ->
  (recover q b = hci_reset /\ ends_with [1; 3; 12] junk /\ b = 0) \/
  (kmp (junk ++ [b]) (recover q b) /\ ~ (ends_with [1; 3; 12] junk /\ b = 0)).
Proof.
  intros (Hq & He & H3 & H2 & H1).
  assert (S3 : ends_with [1;3;12] (junk ++ [b]) <-> ends_with [1;3] junk /\ b = 12)
    by apply (ends_with_snoc [1;3] 12).
  assert (S2 : ends_with [1;3] (junk ++ [b]) <-> ends_with [1] junk /\ b = 3)
    by apply (ends_with_snoc [1] 3).
  assert (S1 : ends_with [1] (junk ++ [b]) <-> ends_with [] junk /\ b = 1)
    by apply (ends_with_snoc [] 1).
  pose proof (ends_nil junk) as H0.
  unfold recover, kmp, hci_reset.
  destruct Hq as [->|[->|[->| ->]]]; cbn [length nth_error reset_command app].
  - (* nothing matched *)
    right. destruct (N.eqb_spec b 1) as [->|Hb1].
    + split.
      * repeat split; auto; try (apply S1; auto).
        -- intros K. apply S3 in K as [K _]. discriminate (H2 K).
        -- intros K. apply S2 in K as [K _]. discriminate (H1 K).
      * intros [K _]. discriminate (H3 K).
    + split.
      * repeat split; auto using ends_nil.
        -- intros K. apply S3 in K as [K _]. discriminate (H2 K).
        -- intros K. apply S2 in K as [K _]. discriminate (H1 K).
        -- intros K. apply S1 in K as [_ K]. congruence.
      * intros [K _]. discriminate (H3 K).
  - right. destruct (N.eqb_spec b 3) as [->|Hb3].
    + split.
      * repeat split; auto; try (apply S2; auto).
        -- intros K. apply S3 in K as [K _]. discriminate (H2 K).
        -- intros K. apply S1 in K as [_ K]. discriminate.
      * intros [K _]. discriminate (H3 K).
    + destruct (N.eqb_spec b 1) as [->|Hb1].
      * split.
        -- repeat split; auto; try (apply S1; auto).
           ++ intros K. apply S3 in K as [K _]. discriminate (H2 K).
           ++ intros K. apply S2 in K as [_ K]. discriminate.
        -- intros [K _]. discriminate (H3 K).
      * split.
        -- repeat split; auto using ends_nil.
           ++ intros K. apply S3 in K as [K _]. discriminate (H2 K).
           ++ intros K. apply S2 in K as [_ K]. congruence.
           ++ intros K. apply S1 in K as [_ K]. congruence.
        -- intros [K _]. discriminate (H3 K).
  - right. destruct (N.eqb_spec b 12) as [->|Hb3].
    + split.
      * repeat split; auto; try (apply S3; auto).
        -- intros K. apply S2 in K as [_ K]. discriminate.
        -- intros K. apply S1 in K as [_ K]. discriminate.
      * intros [K _]. discriminate (H3 K).
    + destruct (N.eqb_spec b 1) as [->|Hb1].
      * split.
        -- repeat split; auto; try (apply S1; auto).
           ++ intros K. apply S3 in K as [_ K]. discriminate.
           ++ intros K. apply S2 in K as [_ K]. discriminate.
        -- intros [K _]. discriminate (H3 K).
      * split.
        -- repeat split; auto using ends_nil.
           ++ intros K. apply S3 in K as [_ K]. congruence.
           ++ intros K. apply S2 in K as [K _]. discriminate (H1 K).
           ++ intros K. apply S1 in K as [_ K]. congruence.
        -- intros [K _]. discriminate (H3 K).
  - destruct (N.eqb_spec b 0) as [->|Hb0].
    + left. auto.
    + right. destruct (N.eqb_spec b 1) as [->|Hb1].
      * split.
        -- repeat split; auto; try (apply S1; auto).
           ++ intros K. apply S3 in K as [_ K]. discriminate.
           ++ intros K. apply S2 in K as [_ K]. discriminate.
        -- intros [_ K]. discriminate.
      * split.
        -- repeat split; auto using ends_nil.
           ++ intros K. apply S3 in K as [K _]. discriminate (H2 K).
           ++ intros K. apply S2 in K as [K _]. discriminate (H1 K).
           ++ intros K. apply S1 in K as [_ K]. congruence.
        -- intros [_ K]. congruence.
Qed.

(** Parser in recovery with matched prefix [q]. *)
Definition recovering (q : list N) (p : parser) : Prop :=
  st p = HCI_RECOVERY /\ packet p = q /\ hci_packet_type p = PT_COMMAND /\
  bytes_wanted p = 1.

Lemma recover_short junk q b : kmp junk q -> kmp (junk ++ [b]) (recover q b) ->
  (lenN (recover q b) =? 4) = false.
Proof. intros _ (H & _). destruct H as [->|[->|[->| ->]]]; reflexivity. Qed.

Lemma consume_recovering junk q p b : kmp junk q -> recovering q p ->
  exists p',
    ((ends_with [1;3;12] junk /\ b = 0) /\
     consume p [b] = Done true p' [ToCommand [3; 12; 0]] /\ ready p'
       /\ enable_recovery p' = enable_recovery p) \/
    (~ (ends_with [1;3;12] junk /\ b = 0) /\
     consume p [b] = Done true p' [] /\ recovering (recover q b) p' /\
     kmp (junk ++ [b]) (recover q b) /\ enable_recovery p' = enable_recovery p).
Proof.
  intros Hk (Hst & Hp & Ht & Hw).
  assert (Hn : exists r, nth_error reset_command (length q) = Some r).
  { destruct Hk as (Hq & _). destruct Hq as [->|[->|[->| ->]]]; eexists; reflexivity. }
  destruct Hn as [r Hr].
  unfold consume, bytes_requested. rewrite Hst.
  replace (1 <? lenN [b]) with false by reflexivity.
  rewrite Hp, Hr.
  assert (Erec : recover q b = if b =? r then q ++ [b] else if b =? 1 then [b] else [])
    by (unfold recover; rewrite Hr; reflexivity).
  cbv zeta. rewrite <- Erec.
  destruct (kmp_step junk q b Hk) as [(E & He & Hb)|(K & Hn)].
  - rewrite E. change (lenN hci_reset =? 4) with true. cbn match.
    rewrite Ht. unfold finish. cbn [on_packet_ready PT_COMMAND].
    eexists. left. repeat split; auto.
  - rewrite (recover_short junk) by assumption. rewrite Hw.
    change (1 =? 0) with false. cbn match.
    eexists. right. repeat split; auto; cbn; auto; apply K.
Qed.

Lemma feed_junk junk2 : forall junk q p, kmp junk q -> recovering q p ->
  ~ contains_reset junk -> ~ contains_reset (junk ++ junk2) ->
  exists p' q', run p (singles junk2) = Done true p' [] /\ kmp (junk ++ junk2) q' /\
     recovering q' p' /\ enable_recovery p' = enable_recovery p.
Proof.
  induction junk2 as [|b junk2 IH]; intros junk q p Hk Hr Hn1 Hn2.
  - exists p, q. rewrite app_nil_r. cbn. auto.
  - change (singles (b :: junk2)) with ([b] :: singles junk2).
    rewrite run_cons.
    replace (junk ++ b :: junk2) with ((junk ++ [b]) ++ junk2) in *
      by (rewrite <- app_assoc; reflexivity).
    assert (Hn3 : ~ contains_reset (junk ++ [b])).
    { intros (a & c & E). apply Hn2. exists a, (c ++ junk2).
      rewrite E, <- !app_assoc. reflexivity. }
    destruct (consume_recovering junk q p b Hk Hr) as (p1 & [(Hb & _)|(Hb & E & Hr1 & K1 & Er)]).
    + exfalso. apply Hn3. apply contains_snoc. auto.
    + rewrite E. cbn [bindo].
      destruct (IH (junk ++ [b]) _ p1 K1 Hr1 Hn3 Hn2) as (p2 & q2 & E2 & K2 & R2 & Er2).
      rewrite E2. exists p2, q2. cbn. repeat split; auto; try apply R2; try apply K2. congruence.
Qed.

Lemma consume_bad_type p g : ready p -> enable_recovery p = true ->
  valid_indicator g = false ->
  exists p', consume p [g] = Done true p' [] /\ recovering [] p' /\ enable_recovery p' = true.
Proof.
  intros R Er V. unfold consume, bytes_requested. rewrite R.
  replace (1 <? lenN [g]) with false by reflexivity.
  rewrite type_test_valid, V, Er. cbn.
  eexists. repeat split.
Qed.

Lemma not_contains_nil : ~ contains_reset [].
Proof. intros (a & c & E). destruct a; discriminate. Qed.

(** No reset in the garbage: nothing is delivered, the parser stays in recovery. *)
Lemma resync_waits p g junk : ready p -> enable_recovery p = true ->
  valid_indicator g = false -> ~ contains_reset junk ->
  exists p', run p (singles (g :: junk)) = Done true p' [] /\ st p' = HCI_RECOVERY.
Proof.
  intros R Er V Hn.
  change (singles (g :: junk)) with ([g] :: singles junk). rewrite run_cons.
  destruct (consume_bad_type p g R Er V) as (p1 & E1 & R1 & Er1).
  rewrite E1. cbn [bindo].
  destruct (feed_junk junk [] [] p1 kmp_nil R1 not_contains_nil) as (p2 & q2 & E2 & K2 & R2 & _);
    [exact Hn|].
  rewrite E2. exists p2. split; [reflexivity|apply R2].
Qed.

Lemma resync_delivers p g junk : ready p -> enable_recovery p = true ->
  valid_indicator g = false ->
  (forall j x, junk ++ hci_reset = j ++ [x] -> ~ contains_reset j) ->
  exists p', run p (singles (g :: junk ++ hci_reset)) = Done true p' [ToCommand [3; 12; 0]]
     /\ ready p' /\ enable_recovery p' = true.
Proof.
  intros R Er V Hfirst.
  change (junk ++ hci_reset) with (junk ++ [1;3;12] ++ [0]).
  rewrite app_assoc, app_comm_cons.
  rewrite singles_app, run_app.
  assert (Hn : ~ contains_reset (junk ++ [1;3;12])).
  { apply (Hfirst _ 0). rewrite <- app_assoc. reflexivity. }
  change (singles (g :: junk ++ [1;3;12])) with ([g] :: singles (junk ++ [1;3;12])).
  rewrite run_cons.
  destruct (consume_bad_type p g R Er V) as (p1 & E1 & R1 & Er1).
  rewrite E1. cbn [bindo].
  destruct (feed_junk (junk ++ [1;3;12]) [] [] p1 kmp_nil R1 not_contains_nil)
    as (p2 & q2 & E2 & K2 & R2 & Er2); [exact Hn|].
  rewrite E2. cbn [bindo app].
  change (singles [0]) with [[0]]. rewrite run_single by discriminate.
  destruct (consume_recovering _ q2 p2 0 K2 R2) as (p3 & [(_ & E3 & R3 & Er3)|(Hb & _)]).
  - rewrite E3. exists p3. repeat split; auto. congruence.
  - exfalso. apply Hb. split; [|reflexivity]. exists junk. reflexivity.
Qed.

(** ---- Full correspondence with the stream specification ---- *)

Lemma deliver_reset : deliver (Command 3 12 []) = ToCommand [3; 12; 0].
Proof. reflexivity. Qed.

Lemma parses_run s ks : parses s ks -> forall p, ready p -> enable_recovery p = true ->
  exists p', run p (singles s) = Done true p' (map deliver ks) /\ ready p'
     /\ enable_recovery p' = true.
Proof.
  induction 1 as [|k s ks W _ IH|g junk s ks V F _ IH]; intros p R Er.
  - exists p. cbn. auto.
  - rewrite singles_app, run_app.
    destruct (roundtrip_one p k R W) as (p1 & E1 & R1 & Er1 & _).
    rewrite E1. cbn [bindo].
    destruct (IH p1 R1) as (p2 & E2 & R2 & Er2); [congruence|].
    rewrite E2. exists p2. cbn. auto.
  - rewrite singles_app, run_app.
    destruct (resync_delivers p g junk R Er V F) as (p1 & E1 & R1 & Er1).
    rewrite E1. cbn [bindo].
    destruct (IH p1 R1 Er1) as (p2 & E2 & R2 & Er2).
    rewrite E2. exists p2. cbn. auto.
Qed.

Lemma parses_app s1 k1 s2 k2 : parses s1 k1 -> parses s2 k2 -> parses (s1 ++ s2) (k1 ++ k2).
Proof.
  induction 1 as [|k s ks W _ IH|g junk s ks V F _ IH]; intros H2; [exact H2| |];
    rewrite <- app_assoc; cbn [app].
  - apply parses_packet; auto.
  - change ((g :: junk ++ hci_reset) ++ s ++ s2) with ((g :: junk ++ hci_reset) ++ (s ++ s2)).
    apply parses_resync; auto.
Qed.

(** What a parser state says about the bytes read since the last delivery. *)
Definition pending (l : list N) (p : parser) : Prop :=
  match st p with
  | HCI_TYPE => l = []
  | HCI_PREAMBLE =>
      exists n, valid_indicator (hci_packet_type p) = true /\
        preamble_size (hci_packet_type p) = Some n /\
        lenN (packet p) + bytes_wanted p = n /\ 1 <= bytes_wanted p /\
        l = hci_packet_type p :: packet p
  | HCI_PAYLOAD =>
      exists k0, wf_packet k0 = true /\ hci_packet_type p = indicator k0 /\
        exists got, packet p = preamble_of k0 ++ got /\
        lenN got + bytes_wanted p = lenN (payload_of k0) /\ 1 <= bytes_wanted p /\
        l = hci_packet_type p :: packet p
  | HCI_RECOVERY =>
      exists g junk, valid_indicator g = false /\ l = g :: junk /\
        ~ contains_reset junk /\ kmp junk (packet p) /\
        hci_packet_type p = PT_COMMAND /\ bytes_wanted p = 1
  end.

(** Replace the payload of a packet by another one of the same length. *)
Definition with_payload (k : hci_packet) (d : list N) : hci_packet :=
  match k with
  | Command a b _ => Command a b d
  | Acl a b _ => Acl a b d
  | Sco a b _ => Sco a b d
  | Event c _ => Event c d
  | Iso a b f _ => Iso a b f d
  end.

Lemma with_payload_ok k d : lenN d = lenN (payload_of k) -> wf_packet k = true ->
  wf_packet (with_payload k d) = true /\ preamble_of (with_payload k d) = preamble_of k /\
  payload_of (with_payload k d) = d /\ indicator (with_payload k d) = indicator k.
Proof.
  intros L W. destruct k; cbn in *; rewrite L; auto.
Qed.

Lemma finish_packet k pt w r : wf_packet k = true ->
  exists p', finish (indicator k) pt (body k) w r = Done true p' [deliver k] /\ ready p'
     /\ enable_recovery p' = r.
Proof.
  intros W. unfold finish. rewrite on_ready_deliver. eexists; repeat split.
Qed.

(** Every complete preamble is the preamble of a well-formed packet. *)
Lemma preamble_packet t l n : valid_indicator t = true -> preamble_size t = Some n ->
  lenN l = n -> forallb is_byte l = true ->
  exists k, wf_packet k = true /\ indicator k = t /\ preamble_of k = l.
Proof.
  intros V P L B. apply valid_cases in V.
  assert (Z0 : forall m : N, lenN (repeat 0 (N.to_nat m)) = m)
    by (intros m; unfold lenN; rewrite repeat_length; lia).
  destruct V as [->|[->|[->|[->| ->]]]]; injection P as <-;
    (apply (list_len_ge _ 2) in L || apply (list_len_ge _ 3) in L || apply (list_len_ge _ 4) in L).
  - destruct l as [|a [|b [|c [|]]]]; try discriminate. cbn [forallb is_byte] in B.
    unfold is_byte in B. bsplit.
    exists (Command a b (repeat 0 (N.to_nat c))). cbn. rewrite Z0.
    repeat split. now apply N.ltb_lt.
  - destruct l as [|a [|b [|c [|d [|]]]]]; try discriminate. cbn [forallb is_byte] in B.
    unfold is_byte in B. bsplit.
    exists (Acl a b (repeat 0 (N.to_nat (c + 256 * d)))). cbn. rewrite Z0.
    repeat split; [apply N.ltb_lt; lia|].
    repeat f_equal; lia.
  - destruct l as [|a [|b [|c [|]]]]; try discriminate. cbn [forallb is_byte] in B.
    unfold is_byte in B. bsplit.
    exists (Sco a b (repeat 0 (N.to_nat c))). cbn. rewrite Z0.
    repeat split. now apply N.ltb_lt.
  - destruct l as [|a [|c [|]]]; try discriminate. cbn [forallb is_byte] in B.
    unfold is_byte in B. bsplit.
    exists (Event a (repeat 0 (N.to_nat c))). cbn. rewrite Z0.
    repeat split. now apply N.ltb_lt.
  - destruct l as [|a [|b [|c [|d [|]]]]]; try discriminate. cbn [forallb is_byte] in B.
    unfold is_byte in B. bsplit.
    exists (Iso a b (d / 16) (repeat 0 (N.to_nat (c + 256 * (d mod 16))))). cbn. rewrite Z0.
    repeat split; [apply andb_true_iff; split; apply N.ltb_lt; lia|].
    repeat f_equal; lia.
Qed.

Lemma first_occurrence junk b j x :
  ~ contains_reset junk -> junk ++ [b] = j ++ [x] -> ~ contains_reset j.
Proof. intros H E. apply app_inj_tail in E as [-> _]. exact H. Qed.

Lemma pending_step l p b : pending l p -> enable_recovery p = true ->
  forallb is_byte (l ++ [b]) = true ->
  exists p' ks l' s', consume p [b] = Done true p' (map deliver ks) /\
    l ++ [b] = s' ++ l' /\ parses s' ks /\ pending l' p' /\ enable_recovery p' = true.
Proof.
  intros HP Er HB.
  pose proof HP as HP0. unfold pending in HP.
  destruct (st p) eqn:Est.
  - subst l. destruct (valid_indicator b) eqn:V.
    + assert (exists n, preamble_size b = Some n /\ 1 <= n) as (n & Hn & Hn1)
        by (apply valid_cases in V; destruct V as [->|[->|[->|[->| ->]]]]; eexists;
            (split; [reflexivity|lia])).
      exists {| hci_packet_type := b; st := HCI_PREAMBLE; packet_type := b; packet := [];
                bytes_wanted := n; enable_recovery := enable_recovery p |}, [], [b], [].
      split.
      { unfold consume, bytes_requested. rewrite Est.
        replace (1 <? lenN [b]) with false by reflexivity.
        rewrite type_test_valid, V, Hn. reflexivity. }
      split; [reflexivity|]. split; [constructor|]. split; [|assumption].
      exists n. cbn. repeat split; auto.
    + destruct (consume_bad_type p b Est Er V) as (p' & E & R & Er').
      exists p', [], [b], []. split; [exact E|]. split; [reflexivity|].
      split; [constructor|]. split; [|assumption].
      destruct R as (R1 & R2 & R3 & R4). unfold pending. rewrite R1.
      exists b, []. rewrite R2. repeat split; auto using not_contains_nil; apply kmp_nil.
  - destruct HP as (n & V & P & L & W & El).
    assert (Hreq : (bytes_requested p <? lenN [b]) = false).
    { unfold bytes_requested; rewrite Est. apply N.ltb_ge. rewrite lenN_cons, lenN_nil. lia. }
    unfold consume. rewrite Hreq, Est.
    destruct (bytes_wanted p - lenN [b] =? 0) eqn:Ew; bsplit; rewrite lenN_cons, lenN_nil in Ew.
    + assert (HB' : forallb is_byte (packet p ++ [b]) = true).
      { rewrite El in HB. cbn in HB. bsplit. assumption. }
      destruct (preamble_packet _ (packet p ++ [b]) n V P) as (k & Wk & Ik & Pk); auto.
      { rewrite lenN_app, lenN_cons, lenN_nil. lia. }
      rewrite <- Ik, <- Pk, length_field by assumption.
      destruct (lenN (payload_of k) =? 0) eqn:Epl; bsplit.
      * assert (Enil : payload_of k = [])
          by (destruct (payload_of k); [reflexivity|]; rewrite lenN_cons in Epl; lia).
        assert (Eb : preamble_of k = body k) by (rewrite body_split, Enil, app_nil_r; reflexivity).
        rewrite Eb.
        destruct (finish_packet k (packet_type p) 0 (enable_recovery p) Wk) as (p' & E & R & Er').
        exists p', [k], [], (encode k). split; [exact E|]. split.
        { rewrite El, app_nil_r. unfold encode. rewrite <- Eb, Pk, Ik. reflexivity. }
        split; [rewrite <- (app_nil_r (encode k)); apply parses_packet; [assumption|constructor]|].
        split; [|congruence]. unfold pending. rewrite R. reflexivity.
      * eexists _, [], (l ++ [b]), []. split; [reflexivity|]. split; [reflexivity|].
        split; [constructor|]. split; [|assumption].
        unfold pending. cbn [st]. exists k. cbn. repeat split; auto.
        exists []. rewrite app_nil_r. repeat split; auto; try (rewrite lenN_nil); try lia.
        rewrite El. cbn. now rewrite Ik, Pk.
    + eexists _, [], (l ++ [b]), []. split; [reflexivity|]. split; [reflexivity|].
      split; [constructor|]. split; [|assumption].
      unfold pending. cbn. exists n. rewrite lenN_app, lenN_cons, lenN_nil.
      repeat split; auto; try lia. rewrite El. reflexivity.
  - destruct HP as (k0 & Wk & Ik & got & Pk & L & W & El).
    assert (Hreq : (bytes_requested p <? lenN [b]) = false).
    { unfold bytes_requested; rewrite Est. apply N.ltb_ge. rewrite lenN_cons, lenN_nil. lia. }
    unfold consume. rewrite Hreq, Est.
    destruct (bytes_wanted p - lenN [b] =? 0) eqn:Ew; bsplit; rewrite lenN_cons, lenN_nil in Ew.
    + set (k := with_payload k0 (got ++ [b])).
      destruct (with_payload_ok k0 (got ++ [b])) as (Wk' & Pk' & Dk' & Ik'); [|assumption|].
      { rewrite lenN_app, lenN_cons, lenN_nil. lia. }
      assert (Eb : packet p ++ [b] = body k).
      { unfold k. rewrite body_split, Pk', Dk', Pk, <- app_assoc. reflexivity. }
      rewrite Eb, Ik, <- Ik'. fold k.
      destruct (finish_packet k (packet_type p) 0 (enable_recovery p) Wk') as (p' & E & R & Er').
      exists p', [k], [], (encode k). split; [exact E|]. split.
      { rewrite El, app_nil_r. unfold encode. rewrite <- Eb. unfold k. rewrite Ik', Ik. reflexivity. }
      split; [rewrite <- (app_nil_r (encode k)); apply parses_packet; [assumption|constructor]|].
      split; [|congruence]. unfold pending. rewrite R. reflexivity.
    + eexists _, [], (l ++ [b]), []. split; [reflexivity|]. split; [reflexivity|].
      split; [constructor|]. split; [|assumption].
      unfold pending. cbn. exists k0. repeat split; auto.
      exists (got ++ [b]). rewrite Pk, <- app_assoc. rewrite lenN_app, lenN_cons, lenN_nil.
      repeat split; auto; try lia. rewrite El, Pk. cbn. now rewrite <- app_assoc.
  - destruct HP as (g & junk & V & El & Hn & K & T & W).
    assert (Rp : recovering (packet p) p) by (repeat split; auto).
    destruct (consume_recovering junk _ p b K Rp)
      as (p' & [((He & Hb) & E & R & Er')|(Hb & E & (R1 & R2 & R3 & R4) & K' & Er')]).
    + destruct He as [j Ej].
      exists p', [Command 3 12 []], [], (l ++ [b]).
      split; [exact E|]. split; [now rewrite app_nil_r|]. split.
      * subst b. rewrite El, Ej. cbn [app]. rewrite <- app_assoc. cbn [app].
        change (g :: j ++ [1;3;12;0]) with (g :: j ++ hci_reset).
        rewrite <- (app_nil_r (g :: j ++ hci_reset)). apply parses_resync; auto; [|constructor].
        intros j' x Ej'. eapply (first_occurrence junk 0); [exact Hn|].
        rewrite <- Ej', Ej, <- app_assoc. reflexivity.
      * split; [|congruence]. unfold pending. rewrite R. reflexivity.
    + exists p', [], (l ++ [b]), []. split; [exact E|]. split; [reflexivity|].
      split; [constructor|]. split; [|congruence].
      unfold pending. rewrite R1. exists g, (junk ++ [b]). rewrite El, R2.
      repeat split; auto; try apply K'.
      intros Hc. apply contains_snoc in Hc as [Hc|Hc]; auto.
Qed.

Lemma run_pending s : forall l p, pending l p -> enable_recovery p = true ->
  forallb is_byte (l ++ s) = true ->
  exists p' ks l' s', run p (singles s) = Done true p' (map deliver ks) /\
    l ++ s = s' ++ l' /\ parses s' ks /\ pending l' p' /\ enable_recovery p' = true.
Proof.
  induction s as [|b s IH]; intros l p HP Er HB.
  - exists p, [], l, []. cbn. rewrite app_nil_r. repeat split; auto. constructor.
  - replace (l ++ b :: s) with ((l ++ [b]) ++ s) in * by (rewrite <- app_assoc; reflexivity).
    rewrite forallb_app in HB. apply andb_true_iff in HB as [HB1 HB2].
    destruct (pending_step l p b HP Er HB1) as (p1 & ks1 & l1 & s1 & E1 & S1 & Q1 & P1 & Er1).
    change (singles (b :: s)) with ([b] :: singles s). rewrite run_cons, E1. cbn [bindo].
    assert (HBl1 : forallb is_byte (l1 ++ s) = true).
    { rewrite forallb_app. rewrite S1, forallb_app in HB1.
      apply andb_true_iff in HB1 as [_ HB1]. now rewrite HB1, HB2. }
    destruct (IH l1 p1 P1 Er1 HBl1) as (p2 & ks2 & l2 & s2 & E2 & S2 & Q2 & P2 & Er2).
    rewrite E2. exists p2, (ks1 ++ ks2), l2, (s1 ++ s2).
    rewrite map_app. split; [reflexivity|].
    split; [rewrite S1, <- app_assoc, S2, app_assoc; reflexivity|].
    split; [now apply parses_app|]. auto.
Qed.

(** Completeness: whatever byte stream is read, the packets delivered are
    those of a parse of the stream up to the current incomplete item. *)
Lemma run_sound s p : ready p -> enable_recovery p = true -> forallb is_byte s = true ->
  exists p' ks l' s', run p (singles s) = Done true p' (map deliver ks) /\
    s = s' ++ l' /\ parses s' ks /\ pending l' p'.
Proof.
  intros R Er HB.
  destruct (run_pending s [] p) as (p' & ks & l' & s' & E & S & Q & P & _); auto.
  - unfold pending. rewrite R. reflexivity.
  - exists p', ks, l', s'. auto.
Qed.

Lemma run_ready_iff s p : ready p -> enable_recovery p = true -> forallb is_byte s = true ->
  forall ds, (exists p', run p (singles s) = Done true p' ds /\ ready p') <->
             (exists ks, parses s ks /\ ds = map deliver ks).
Proof.
  intros R Er HB ds. split.
  - intros (p' & E & R').
    destruct (run_sound s p R Er HB) as (p2 & ks & l' & s' & E2 & S & Q & P).
    rewrite E in E2. injection E2 as <- ->.
    unfold pending in P. rewrite R' in P. subst l'. rewrite app_nil_r in S. subst s'. eauto.
  - intros (ks & Q & ->).
    destruct (parses_run s ks Q p R Er) as (p' & E & R' & _). eauto.
Qed.

(** ---- No over-read ---- *)

Definition mid (k : hci_packet) (a : list N) (p : parser) : Prop :=
  match a with
  | [] => ready p
  | _ :: a' =>
      hci_packet_type p = indicator k /\ packet p = a' /\
      ((lenN a' < lenN (preamble_of k) /\ st p = HCI_PREAMBLE /\
        bytes_wanted p = lenN (preamble_of k) - lenN a') \/
       (lenN (preamble_of k) <= lenN a' /\ st p = HCI_PAYLOAD /\
        bytes_wanted p = lenN (body k) - lenN a'))
  end.

Lemma indicator_valid k : valid_indicator (indicator k) = true.
Proof. destruct k; reflexivity. Qed.

Lemma indicator_preamble k : preamble_size (indicator k) = Some (lenN (preamble_of k)).
Proof. destruct k; reflexivity. Qed.

Lemma body_len k : lenN (body k) = lenN (preamble_of k) + lenN (payload_of k).
Proof. now rewrite body_split, lenN_app. Qed.

Lemma app_prefix_full {A} (a b c d : list A) : a ++ b = c ++ d -> length a = length c -> a = c.
Proof.
  revert c; induction a as [|x a IH]; intros [|y c] E L; try discriminate; [reflexivity|].
  cbn in *. injection E as -> E. f_equal. apply IH; [exact E|lia].
Qed.

Lemma mid_step k a p b rest : wf_packet k = true -> encode k = a ++ b :: rest -> rest <> [] ->
  mid k a p -> exists p', consume p [b] = Done true p' [] /\ mid k (a ++ [b]) p'.
Proof.
  intros W E Hr M. unfold encode in E.
  assert (Hr1 := lenN_pos rest Hr).
  assert (L1 : lenN [b] = 1) by reflexivity.
  destruct a as [|t a'].
  - cbn in E. injection E as Et Eb. cbn in M.
    assert (Hb : valid_indicator b = true) by (rewrite <- Et; apply indicator_valid).
    assert (Hp := indicator_preamble k). rewrite Et in Hp.
    eexists. split.
    + unfold consume, bytes_requested. rewrite M.
      replace (1 <? lenN [b]) with false by reflexivity.
      rewrite type_test_valid, Hb, Hp. reflexivity.
    + cbn. rewrite Et. repeat split. left. rewrite lenN_nil. repeat split; try lia.
      destruct k; reflexivity.
  - cbn [app] in E. injection E as Et Eb. destruct M as (T & P & M).
    assert (Lb : lenN (body k) = lenN a' + 1 + lenN rest)
      by (rewrite Eb, lenN_app, lenN_cons; lia).
    pose proof (body_len k) as BL.
    destruct M as [(Hlt & S & Bw)|(Hge & S & Bw)].
    + assert (Hreq : (bytes_requested p <? lenN [b]) = false)
        by (unfold bytes_requested; rewrite S; apply N.ltb_ge; lia).
      unfold consume. rewrite Hreq, S, P.
      destruct (bytes_wanted p - lenN [b] =? 0) eqn:Ew; bsplit.
      * assert (Epre : preamble_of k = a' ++ [b]).
        { apply (app_prefix_full _ (payload_of k) _ rest).
          - rewrite <- body_split, Eb, <- app_assoc. reflexivity.
          - apply Nat2N.inj. fold (lenN (preamble_of k)). fold (lenN (a' ++ [b])).
            rewrite lenN_app, L1. lia. }
        rewrite <- Epre, T, length_field by assumption.
        assert (Epay : (lenN (payload_of k) =? 0) = false).
        { apply N.eqb_neq. rewrite Epre, lenN_app in BL. lia. }
        rewrite Epay. eexists. split; [reflexivity|].
        cbn. rewrite <- Epre. repeat split. right. repeat split; lia.
      * eexists. split; [reflexivity|]. cbn. repeat split; auto. left.
        rewrite lenN_app, L1 in *. repeat split; lia.
    + assert (Hreq : (bytes_requested p <? lenN [b]) = false)
        by (unfold bytes_requested; rewrite S; apply N.ltb_ge; lia).
      unfold consume. rewrite Hreq, S, P.
      destruct (bytes_wanted p - lenN [b] =? 0) eqn:Ew; bsplit; [lia|].
      eexists. split; [reflexivity|]. cbn. repeat split; auto. right.
      rewrite lenN_app, L1 in *. repeat split; lia.
Qed.

Lemma mid_run k a : forall rest p, wf_packet k = true -> encode k = a ++ rest -> rest <> [] ->
  ready p -> exists p', run p (singles a) = Done true p' [] /\ mid k a p'.
Proof.
  induction a as [|b a IH] using rev_ind; intros rest p W E Hr R.
  - exists p. auto.
  - rewrite <- app_assoc in E.
    destruct (IH ([b] ++ rest) p W E) as (p1 & E1 & M1); [discriminate|exact R|].
    destruct (mid_step k a p1 b rest W E Hr M1) as (p2 & E2 & M2).
    exists p2. split; [|exact M2].
    rewrite singles_app, run_app, E1. cbn [bindo].
    change (singles [b]) with [[b]]. rewrite run_single by discriminate. now rewrite E2.
Qed.

Lemma mid_requested k a rest p : encode k = a ++ rest -> rest <> [] -> mid k a p ->
  bytes_requested p <= lenN rest.
Proof.
  intros E Hr M. assert (Hr1 := lenN_pos rest Hr). unfold bytes_requested, encode in *.
  destruct a as [|t a']; cbn in M; [rewrite M; lia|].
  cbn [app] in E. injection E as _ E. pose proof (body_len k) as BL.
  assert (Lb : lenN (body k) = lenN a' + lenN rest) by (rewrite E, lenN_app; lia).
  destruct M as (_ & _ & [(K1 & -> & ->)|(K1 & -> & ->)]); lia.
Qed.

Lemma no_overread ks k a rest p chunks :
  ready p -> forallb wf_packet ks = true -> wf_packet k = true ->
  encode k = a ++ rest -> rest <> [] ->
  respects p chunks = true -> concat chunks = concat (map encode ks) ++ a ->
  exists p', run p chunks = Done true p' (map deliver ks) /\
     1 <= bytes_requested p' <= lenN rest.
Proof.
  intros R Wks W E Hr C Ec.
  rewrite respects_bytewise by assumption. rewrite Ec, singles_app, run_app.
  destruct (roundtrip_bytes ks p R Wks) as (p1 & E1 & R1 & _).
  rewrite E1. cbn [bindo].
  destruct (mid_run k a rest p1 W E Hr R1) as (p2 & E2 & M2).
  rewrite E2. exists p2. rewrite app_nil_r. split; [reflexivity|].
  split; [|eapply mid_requested; eassumption].
  destruct a as [|t a']; cbn in M2; unfold bytes_requested.
  - rewrite M2. lia.
  - unfold encode in E. cbn [app] in E. injection E as _ E.
    assert (Hr1 := lenN_pos rest Hr).
    assert (Lb : lenN (body k) = lenN a' + lenN rest) by (rewrite E, lenN_app; lia).
    destruct M2 as (_ & _ & [(K1 & -> & ->)|(K1 & -> & ->)]); lia.
Qed.

(** ---- The packetizer read loop ---- *)

Lemma on_data_ready_run sizes : forall p stream, Inv p -> enable_recovery p = true ->
  exists p' out rest done, on_data_ready p stream sizes = Some (p', out, rest) /\
    stream = done ++ rest /\ run p (singles done) = Done true p' out /\
    Inv p' /\ enable_recovery p' = true /\ (length sizes <= length done \/ rest = [])%nat.
Proof.
  induction sizes as [|k sizes IH]; intros p stream HI Er; cbn [on_data_ready].
  - exists p, [], stream, []. cbn. repeat split; auto.
  - destruct stream as [|x stream].
    + exists p, [], [], []. cbn. repeat split; auto.
    + set (str := x :: stream).
      set (n := Nat.min (Nat.max 1 k) (N.to_nat (bytes_requested p))).
      assert (Hreq := inv_requests p HI).
      assert (Hn : (1 <= n)%nat) by (unfold n; lia).
      assert (Hn2 : (n <= N.to_nat (bytes_requested p))%nat) by (unfold n; lia).
      assert (Hne : firstn n str <> []) by (destruct n; [lia|discriminate]).
      assert (Hlen : lenN (firstn n str) <= bytes_requested p)
        by (unfold lenN; pose proof (firstn_le_length n str); lia).
      destruct (consume_inv p (firstn n str) HI Hne Hlen) as (K1 & K2 & _).
      destruct (K1 Er) as (p1 & o1 & E1).
      destruct (K2 _ _ _ E1) as (HI1 & Er1 & _).
      rewrite E1.
      destruct (IH p1 (skipn n str)) as (p2 & o2 & rest & done & E2 & S2 & R2 & HI2 & Er2 & L2);
        [assumption|congruence|].
      rewrite E2. exists p2, (o1 ++ o2), rest, (firstn n str ++ done).
      split; [reflexivity|]. split; [rewrite <- app_assoc, <- S2, firstn_skipn; reflexivity|].
      split.
      { rewrite singles_app, run_app, <- (consume_bytewise p (firstn n str)) by assumption.
        rewrite E1. cbn [bindo]. now rewrite R2. }
      split; [assumption|]. split; [assumption|].
      destruct L2 as [L2|L2]; [left|right; exact L2].
      rewrite app_length. cbn [length].
      assert (1 <= length (firstn n str))%nat by (destruct (firstn n str); [congruence|cbn; lia]).
      lia.
Qed.

(** With enough turns the loop drains the stream. *)
Lemma on_data_ready_drains sizes p stream : Inv p -> enable_recovery p = true ->
  (length stream <= length sizes)%nat ->
  exists p' out, on_data_ready p stream sizes = Some (p', out, []) /\
    run p (singles stream) = Done true p' out.
Proof.
  intros HI Er L.
  destruct (on_data_ready_run sizes p stream HI Er) as (p' & out & rest & done & E & S & R & _ & _ & Q).
  assert (rest = []).
  { destruct Q as [Q|Q]; [|exact Q].
    rewrite S, app_length in L. destruct rest; [reflexivity|cbn in L; lia]. }
  subst rest. rewrite app_nil_r in S. subst done. eauto.
Qed.

Lemma packetizer_roundtrip r ks sizes :
  r = true -> forallb wf_packet ks = true ->
  (length (concat (map (fun k => send (indicator k) (body k)) ks)) <= length sizes)%nat ->
  exists p', on_data_ready (init r) (concat (map (fun k => send (indicator k) (body k)) ks)) sizes
     = Some (p', map deliver ks, []) /\ ready p'.
Proof.
  intros -> W L.
  destruct (on_data_ready_drains sizes (init true) _ (inv_init true) eq_refl L) as (p' & out & E & R).
  destruct (roundtrip_bytes ks (init true) eq_refl W) as (p2 & E2 & R2 & _).
  change (map encode ks) with (map (fun k => send (indicator k) (body k)) ks) in E2.
  rewrite E2 in R. injection R as <- <-. eauto.
Qed.

(** ---- Statements used by P_H4.v ---- *)

Lemma C01_h4_roundtrip_lemma recovery packets reads :
  forallb wf_packet packets = true ->
  concat reads = concat (map encode packets) ->
  respects (init recovery) reads = true ->
  exists p', run (init recovery) reads = Done true p' (map deliver packets) /\ ready p'.
Proof. intros W E C. apply roundtrip; auto. reflexivity. Qed.

Lemma C02_h4_progress_lemma reads : respects (init true) reads = true ->
  exists p' out, run (init true) reads = Done true p' out /\ 1 <= bytes_requested p'.
Proof.
  intros C. destruct (respects_inv _ _ (inv_init true) eq_refl C) as (p' & o & E & HI & _).
  exists p', o. split; [exact E|]. now apply inv_requests.
Qed.

Lemma C02_h4_never_overreads_lemma recovery before k a rest reads :
  forallb wf_packet before = true -> wf_packet k = true ->
  encode k = a ++ rest -> rest <> [] ->
  concat reads = concat (map encode before) ++ a ->
  respects (init recovery) reads = true ->
  exists p', run (init recovery) reads = Done true p' (map deliver before) /\
    1 <= bytes_requested p' <= lenN rest.
Proof. intros. eapply no_overread; eauto. reflexivity. Qed.

Lemma C03_h4_resync_silent_lemma before g junk reads :
  forallb wf_packet before = true -> valid_indicator g = false ->
  ~ contains_reset junk ->
  concat reads = concat (map encode before) ++ g :: junk ->
  respects (init true) reads = true ->
  exists p', run (init true) reads = Done true p' (map deliver before) /\ st p' = HCI_RECOVERY.
Proof.
  intros W V Hn E C. rewrite respects_bytewise by assumption. rewrite E, singles_app, run_app.
  destruct (roundtrip_bytes before (init true) eq_refl W) as (p1 & E1 & R1 & Er1).
  rewrite E1. cbn [bindo].
  destruct (resync_waits p1 g junk R1 Er1 V Hn) as (p2 & E2 & S2).
  rewrite E2. exists p2. rewrite app_nil_r. auto.
Qed.

Lemma C03_h4_stream_semantics_lemma reads out :
  forallb is_byte (concat reads) = true ->
  respects (init true) reads = true ->
  (exists p', run (init true) reads = Done true p' out /\ ready p') <->
  (exists packets, parses (concat reads) packets /\ out = map deliver packets).
Proof.
  intros B C. rewrite respects_bytewise by assumption.
  apply run_ready_iff; auto; reflexivity.
Qed.

Lemma parses_packets ks s ps : forallb wf_packet ks = true -> parses s ps ->
  parses (concat (map encode ks) ++ s) (ks ++ ps).
Proof.
  induction ks as [|k ks IH]; cbn [forallb map concat app]; intros W H; [exact H|].
  bsplit. rewrite <- app_assoc. apply parses_packet; auto.
Qed.

Lemma C03_h4_resync_delivers_lemma before after g junk reads :
  forallb wf_packet before = true -> forallb wf_packet after = true ->
  valid_indicator g = false ->
  (forall j x, junk ++ hci_reset = j ++ [x] -> ~ contains_reset j) ->
  concat reads = concat (map encode before) ++ (g :: junk ++ hci_reset) ++ concat (map encode after) ->
  respects (init true) reads = true ->
  exists p', run (init true) reads
    = Done true p' (map deliver (before ++ Command 3 12 [] :: after)) /\ ready p'.
Proof.
  intros W1 W2 V F E C. rewrite respects_bytewise by assumption. rewrite E.
  destruct (parses_run (concat (map encode before) ++ (g :: junk ++ hci_reset) ++ concat (map encode after))
     (before ++ Command 3 12 [] :: after)) with (p := init true) as (p' & E' & R' & _); try reflexivity.
  - apply parses_packets; [assumption|]. apply parses_resync; auto.
    pose proof (parses_packets after [] [] W2 parses_nil) as H.
    rewrite !app_nil_r in H. exact H.
  - eauto.
Qed.

Lemma example_first_reset : forall j x, [1; 1; 3] ++ hci_reset = j ++ [x] -> ~ contains_reset j.
Proof.
  intros j x E. change ([1; 1; 3] ++ hci_reset) with ([1; 1; 3; 1; 3; 12] ++ [0]) in E.
  apply app_inj_tail in E as [<- _]. intros (a & b & E).
  do 7 (destruct a as [|? a]; [discriminate|]; cbn in E; try (injection E as _ E)).
  all: try discriminate.
Qed.
