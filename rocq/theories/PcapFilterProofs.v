From Verif Require Import Prelude PcapFilter PcapFilterSpec.
Open Scope N_scope.
Ltac Zify.zify_post_hook ::= Z.div_mod_to_equations.

(** ** Names *)

Lemma generate_length nr len padded : length (generate_device_name nr len padded) = len.
Proof.
  unfold generate_device_name. rewrite app_length, repeat_length.
  pose proof (firstn_le_length len (device_text nr)). lia.
Qed.

Lemma find_name_length m n new : names_ok m -> find_name m n = Some new -> length new = length n.
Proof.
  induction 1 as [|[o w] m Ho Hm IH]; cbn; [discriminate|].
  destruct (list_eqb o n) eqn:E; [|exact IH].
  apply list_eqb_eq in E. intros [= <-]. cbn in Ho. congruence.
Qed.

Lemma change_length pd m n m' new : names_ok m -> change_device_name pd m n = (m', new) ->
  length new = length n /\ names_ok m'.
Proof.
  unfold change_device_name. intros Hm. destruct (find_name m n) as [w|] eqn:E; intros [= <- <-].
  - split; [now apply find_name_length with m|exact Hm].
  - split; [apply generate_length|]. apply Forall_app. split; [exact Hm|].
    repeat constructor. cbn. apply generate_length.
Qed.

(** ** GAP data keeps its length *)

Lemma filter_gap_loop_length f : forall m l m' r, names_ok m ->
  filter_gap_loop f m l = (m', r) -> length r = length l /\ names_ok m'.
Proof.
  induction f as [|f IH]; intros m l m' r Hm; cbn [filter_gap_loop].
  { intros [= <- <-]. auto. }
  destruct l as [|len [|ty l]]; [intros [= <- <-]; auto ..|].
  destruct (Nat.ltb_spec (length (len :: ty :: l)) (N.to_nat len + 1)) as [Hl|Hl];
    [intros [= <- <-]; auto|].
  cbn [tl]. destruct (N.eqb_spec len 0) as [H0|H0].
  { destruct (filter_gap_loop f m (ty :: l)) as [m1 r1] eqn:E. intros [= <- <-].
    apply IH in E as [E1 E2]; [|exact Hm]. split; [cbn in *; lia|exact E2]. }
  set (body := ty :: l) in *.
  assert (Hb : (N.to_nat len <= length body)%nat) by (subst body; cbn in *; lia).
  assert (He : length (firstn (N.to_nat len) body) = N.to_nat len) by (apply firstn_length_le; lia).
  assert (Hs : length (skipn (N.to_nat len) body) = (length body - N.to_nat len)%nat) by apply skipn_length.
  change (length (len :: body)) with (S (length body)).
  destruct (is_name_type ty).
  - destruct (change_device_name _ _ _) as [m1 new] eqn:Ec.
    destruct (filter_gap_loop f m1 _) as [m2 r2] eqn:E. intros [= <- <-].
    apply change_length in Ec as [Ec1 Ec2]; [|exact Hm].
    apply IH in E as [E1 E2]; [|exact Ec2]. split; [|exact E2].
    cbn [length]. rewrite !app_length, E1, Ec1, Hs.
    rewrite firstn_length_le, skipn_length, He by lia. lia.
  - destruct (filter_gap_loop f m _) as [m2 r2] eqn:E. intros [= <- <-].
    apply IH in E as [E1 E2]; [|exact Hm]. split; [|exact E2].
    cbn [length]. rewrite !app_length, E1, Hs, He. lia.
Qed.

Lemma filter_gap_length m l m' r : names_ok m -> filter_gap m l = (m', r) ->
  length r = length l /\ names_ok m'.
Proof. apply filter_gap_loop_length. Qed.

(** ** Packets keep their shape *)

Lemma filter_adv_length rs : forall m m' rs', names_ok m -> filter_adv m rs = (m', rs') ->
  names_ok m' /\ length (flat_map encode_adv rs') = length (flat_map encode_adv rs) /\
  length rs' = length rs.
Proof.
  induction rs as [|r rs IH]; intros m m' rs' Hm; cbn.
  { intros [= <- <-]. auto. }
  destruct (filter_gap m (ar_data r)) as [m1 d] eqn:E1.
  destruct (filter_adv m1 rs) as [m2 o] eqn:E2. intros [= <- <-].
  apply filter_gap_length in E1 as [L1 O1]; [|exact Hm].
  apply IH in E2 as (O2 & L2 & L3); [|exact O1].
  split; [exact O2|]. split; [|cbn; lia]. cbn [flat_map]. rewrite !app_length, L2.
  unfold encode_adv. cbn [ar_head ar_data ar_rssi]. rewrite !app_length, L1. reflexivity.
Qed.

Lemma filter_ext_length rs : forall m m' rs', names_ok m -> filter_ext m rs = (m', rs') ->
  names_ok m' /\ length (flat_map encode_ext rs') = length (flat_map encode_ext rs) /\
  length rs' = length rs.
Proof.
  induction rs as [|r rs IH]; intros m m' rs' Hm; cbn.
  { intros [= <- <-]. auto. }
  destruct (filter_gap m (er_data r)) as [m1 d] eqn:E1.
  destruct (filter_ext m1 rs) as [m2 o] eqn:E2. intros [= <- <-].
  apply filter_gap_length in E1 as [L1 O1]; [|exact Hm].
  apply IH in E2 as (O2 & L2 & L3); [|exact O1].
  split; [exact O2|]. split; [|cbn; lia]. cbn [flat_map]. rewrite !app_length, L2.
  unfold encode_ext. cbn [er_head er_data]. rewrite !app_length, L1. reflexivity.
Qed.

Lemma lenN_eq {A B} (a : list A) (b : list B) : length a = length b -> lenN a = lenN b.
Proof. unfold lenN. congruence. Qed.

Lemma pad31_length d d' : length d = length d' -> length (pad31 d) = length (pad31 d').
Proof. intros H. unfold pad31. rewrite !app_length, !repeat_length, H. reflexivity. Qed.

Lemma command_shape op a b : length a = length b ->
  length (command op a) = length (command op b) /\ firstn 3 (command op a) = firstn 3 (command op b).
Proof. intros H. unfold command. rewrite !app_length, H, (lenN_eq a b H). cbn. auto. Qed.
Lemma event_shape op a b : length a = length b ->
  length (event op a) = length (event op b) /\ firstn 2 (event op a) = firstn 2 (event op b).
Proof. intros H. unfold event. rewrite !app_length, H, (lenN_eq a b H). cbn. auto. Qed.

Lemma filter_packet_shape m p m' p' : names_ok m -> filter_packet m p = (m', p') ->
  names_ok m' /\ idc p' = idc p /\ length (encode p') = length (encode p) /\
  firstn (header_size p) (encode p') = firstn (header_size p) (encode p).
Proof.
  intros Hm. destruct p; cbn [filter_packet].
  all: try (intros [= <- <-]; now auto).
  all: repeat match goal with |- context [if ?c then _ else _] => destruct c end.
  all: try (intros [= <- <-]; now auto).
  all: try (match goal with |- context [change_device_name ?a ?b ?c] => destruct (change_device_name a b c) as [m1 n] eqn:E end; intros [= <- <-];
    apply change_length in E as [E1 E2]; [|exact Hm]).
  all: try (match goal with |- context [filter_gap ?mm ?d] => destruct (filter_gap mm d) as [m1 n] eqn:E end;
    intros [= <- <-]; apply filter_gap_length in E as [E1 E2]; [|exact Hm]).
  all: try (match goal with |- context [filter_adv ?a ?b] => destruct (filter_adv a b) as [m1 n] eqn:E end; intros [= <- <-];
    apply filter_adv_length in E as (E2 & E1 & E3); [|exact Hm]).
  all: try (match goal with |- context [filter_ext ?a ?b] => destruct (filter_ext a b) as [m1 n] eqn:E end; intros [= <- <-];
    apply filter_ext_length in E as (E2 & E1 & E3); [|exact Hm]).
  all: try (intros [= <- <-]).
  all: (split; [assumption|split; [reflexivity|]]).
  all: cbn [encode header_size idc].
  all: try (apply command_shape; cbn [length app]; rewrite ?app_length; cbn [length];
    rewrite ?E1, ?(pad31_length _ _ E1); reflexivity).
  all: try (apply event_shape; cbn [length app]; rewrite ?app_length; cbn [length];
    rewrite ?app_length; cbn [length]; rewrite ?E1; reflexivity).
  all: unfold lenN; cbn [length app firstn]; rewrite !repeat_length; auto.
Qed.

(** ** Views and builders *)

Lemma take_app a b : take (length a) (a ++ b) = Some (a, b).
Proof.
  unfold take. rewrite app_length.
  destruct (Nat.ltb_spec (length a + length b) (length a)); [lia|].
  rewrite firstn_app, skipn_app, Nat.sub_diag, firstn_all, skipn_all. cbn. now rewrite app_nil_r.
Qed.

Lemma take_app' n a b : length a = n -> take n (a ++ b) = Some (a, b).
Proof. intros <-. apply take_app. Qed.

Lemma decode_adv_encode rs : Forall (fun r => length (ar_head r) = 8%nat) rs ->
  decode_adv (length rs) (flat_map encode_adv rs) = Some rs.
Proof.
  induction 1 as [|r rs Hr _ IH]; [reflexivity|].
  cbn [length decode_adv flat_map]. unfold encode_adv at 1. rewrite <- !app_assoc.
  rewrite (take_app' 8) by exact Hr. cbn [app].
  unfold lenN. rewrite Nnat.Nat2N.id, take_app. rewrite IH. now destruct r.
Qed.

Lemma land_id x n : x < 2 ^ n -> N.land x (N.ones n) = x.
Proof. intros H. rewrite N.land_ones. now apply N.mod_small. Qed.

Lemma decode_ext_encode rs :
  Forall (fun r => exists t0 r', er_head r = t0 :: 0 :: r' /\ t0 < 128 /\ length r' = 21%nat) rs ->
  decode_ext (length rs) (flat_map encode_ext rs) = Some rs.
Proof.
  induction 1 as [|r rs (t0 & r' & Hr & Ht & Hl) _ IH]; [reflexivity|].
  cbn [length decode_ext flat_map]. unfold encode_ext at 1. rewrite <- !app_assoc.
  rewrite (take_app' 23) by (rewrite Hr; cbn; lia). cbn [app].
  unfold lenN. rewrite Nnat.Nat2N.id, take_app. rewrite IH. destruct r as [h d]. cbn in *.
  subst h. cbn. change 127 with (N.ones 7). rewrite land_id by exact Ht. reflexivity.
Qed.

Lemma firstn_app_exact {A} (a b : list A) n : n = length a -> firstn n (a ++ b) = a.
Proof. intros ->. rewrite firstn_app, Nat.sub_diag, firstn_all. cbn. apply app_nil_r. Qed.

Lemma decode_encode p : well_formed p -> decode (idc p) (encode p) = Some p.
Proof.
  destruct p; cbn [well_formed idc encode]; intros W; unfold decode; cbn [N.eqb Pos.eqb].
  all: try (unfold decode_command, command; cbn [app]; rewrite N.eqb_refl; cbn [negb]).
  all: try (unfold decode_event, event; cbn [app]; rewrite N.eqb_refl; cbn [negb]).
  - change (_ =? 0x0C13) with true. cbn iota. rewrite W. reflexivity.
  - change (_ =? 0x0C13) with false. change (_ =? 0x0C52) with true. cbn iota. rewrite W. reflexivity.
  - assert (E : Nat.eqb (length (pad31 data)) 31 = true).
    { apply Nat.eqb_eq. unfold pad31. rewrite app_length, repeat_length. lia. }
    assert (E2 : (lenN data <=? 31) = true) by (unfold lenN; lia).
    assert (E3 : firstn (N.to_nat (lenN data)) (pad31 data) = data).
    { unfold pad31. apply firstn_app_exact. unfold lenN. lia. }
    destruct scan_rsp; cbn -[pad31 lenN Nat.eqb firstn N.to_nat]; rewrite E, E2; cbn [andb];
      rewrite E3; reflexivity.
  - destruct W as (W1 & W2 & W3).
    pose proof (land_id op 3 W1) as L1. change (N.ones 3) with 7 in L1.
    pose proof (land_id frag 1 W2) as L2. change (N.ones 1) with 1 in L2.
    destruct scan_rsp; cbn -[lenN N.land]; rewrite (N.eqb_refl (lenN _)), L1, L2; reflexivity.
  - destruct W as (W1 & W2). cbn -[lenN N.land]. rewrite (N.eqb_refl (lenN _)).
    change 7 with (N.ones 3). rewrite (land_id op 3) by exact W1. reflexivity.
  - destruct W as (W1 & W2 & W3). cbn [In] in W3.
    replace (op_code mod 256 + 256 * (op_code / 256)) with op_code by lia.
    repeat match goal with |- context [op_code =? ?c] =>
      destruct (N.eqb_spec op_code c); [exfalso; apply W3; subst; tauto|] end.
    reflexivity.
  - cbn -[Nat.eqb]. rewrite W. reflexivity.
  - cbn -[Nat.eqb]. rewrite W. reflexivity.
  - destruct W as (W1 & W2). cbn -[Nat.eqb take]. rewrite (take_app' 6) by exact W1.
    rewrite W2. reflexivity.
  - destruct W as (W1 & W2 & W3 & W4). destruct cod as [|c0 [|c1 [|c2 [|]]]]; try discriminate.
    cbn -[Nat.eqb take N.modulo N.div N.land N.mul N.add]. rewrite (take_app' 6) by exact W1.
    rewrite W4. cbn -[N.modulo N.div N.land N.mul N.add].
    change 127 with (N.ones 7). rewrite land_id by (change (2^7) with 128; lia).
    replace (clock mod 256 + 256 * (clock / 256)) with clock by lia. reflexivity.
  - cbn -[lenN]. unfold lenN. rewrite Nnat.Nat2N.id, decode_adv_encode by exact W. reflexivity.
  - cbn -[lenN]. unfold lenN. rewrite Nnat.Nat2N.id, decode_ext_encode by exact W. reflexivity.
  - cbn [In] in W.
    repeat match goal with |- context [code =? ?c] =>
      destruct (N.eqb_spec code c); [exfalso; apply W; subst; tauto|] end.
    reflexivity.
  - cbn -[lenN N.modulo N.div N.mul N.add].
    replace (lenN payload mod 256 + 256 * (lenN payload / 256)) with (lenN payload) by lia.
    rewrite (N.eqb_refl (lenN _)). reflexivity.
  - cbn -[lenN N.land]. rewrite (N.eqb_refl (lenN _)). change 63 with (N.ones 6). rewrite land_id by exact W. reflexivity.
  - destruct W as (W1 & W2). cbn -[lenN N.modulo N.div N.mul N.add N.land].
    assert (L1 : N.land (lenN payload / 256) 63 = lenN payload / 256).
    { change 63 with (N.ones 6). apply land_id. change (2^6) with 64; lia. }
    assert (L2 : N.land h1 127 = h1) by exact (land_id h1 7 W1).
    rewrite L1, L2.
    replace (lenN payload mod 256 + 256 * (lenN payload / 256)) with (lenN payload) by lia.
    rewrite (N.eqb_refl (lenN _)). reflexivity.
Qed.

(** The filter acts on the fields of a well-formed packet. *)
Lemma filter_encoded m p : well_formed p ->
  filter_hci_packet m (encode p) (idc p) =
  let '(m', p') := filter_packet m p in Some (m', encode p').
Proof.
  intros W. unfold filter_hci_packet. rewrite (decode_encode p W).
  destruct p; reflexivity.
Qed.

(** ** Every accepted packet keeps its length *)

Lemma take_inv n l a b : take n l = Some (a, b) -> l = a ++ b /\ length a = n.
Proof.
  unfold take. destruct (Nat.ltb_spec (length l) n) as [H|H]; [discriminate|].
  intros [= <- <-]. split; [symmetry; apply firstn_skipn|apply firstn_length_le; lia].
Qed.

Ltac dtake H :=
  match type of H with context [take ?n ?l] =>
    let E := fresh "T" in destruct (take n l) as [[? ?]|] eqn:E; [|discriminate];
    apply take_inv in E as [? ?] end.

Lemma decode_adv_length n : forall l rs, decode_adv n l = Some rs ->
  length (flat_map encode_adv rs) = length l /\ length rs = n.
Proof.
  induction n as [|n IH]; intros l rs; cbn [decode_adv].
  { destruct l; [|discriminate]. intros [= <-]. auto. }
  destruct (take 8 l) as [[h [|len l1]]|] eqn:T1; try discriminate. apply take_inv in T1 as [-> H1].
  destruct (take (N.to_nat len) l1) as [[d [|rssi l2]]|] eqn:T2; try discriminate.
  apply take_inv in T2 as [-> H2].
  destruct (decode_adv n l2) as [rs'|] eqn:E; [|discriminate]. intros [= <-].
  apply IH in E as [E1 E2]. split; [|cbn; lia].
  cbn [flat_map]. unfold encode_adv at 1. cbn [ar_head ar_data ar_rssi].
  rewrite !app_length. cbn [length]. rewrite !app_length. cbn [length]. lia.
Qed.

Lemma clear_ext_head_length h : length (clear_ext_head h) = length h.
Proof. destruct h as [|? [|? ?]]; reflexivity. Qed.

Lemma decode_ext_length n : forall l rs, decode_ext n l = Some rs ->
  length (flat_map encode_ext rs) = length l /\ length rs = n.
Proof.
  induction n as [|n IH]; intros l rs; cbn [decode_ext].
  { destruct l; [|discriminate]. intros [= <-]. auto. }
  destruct (take 23 l) as [[h [|len l1]]|] eqn:T1; try discriminate. apply take_inv in T1 as [-> H1].
  destruct (take (N.to_nat len) l1) as [[d l2]|] eqn:T2; try discriminate.
  apply take_inv in T2 as [-> H2].
  destruct (decode_ext n l2) as [rs'|] eqn:E; [|discriminate]. intros [= <-].
  apply IH in E as [E1 E2]. split; [|cbn; lia].
  cbn [flat_map]. unfold encode_ext at 1. cbn [er_head er_data].
  rewrite !app_length, clear_ext_head_length. cbn [length]. rewrite !app_length. lia.
Qed.

Lemma pad31_is_31 d : (length d <= 31)%nat -> length (pad31 d) = 31%nat.
Proof. intros H. unfold pad31. rewrite app_length, repeat_length. lia. Qed.

Lemma decode_command_length b p : decode_command b = Some p -> length (encode p) = length b.
Proof.
  unfold decode_command. destruct b as [|o0 [|o1 [|len payload]]]; try discriminate.
  destruct (negb _); [discriminate|].
  repeat match goal with
  | |- (if ?c then _ else _) = _ -> _ => destruct c eqn:?
  | |- match payload with _ => _ end = _ -> _ => destruct payload as [|? payload]
  end; try discriminate; intros [= <-]; cbn [encode]; unfold command; cbn [app length];
    try reflexivity; try lia.
  bsplit. apply Nat.eqb_eq in H. rewrite pad31_is_31; [lia|].
  rewrite firstn_length. lia.
Qed.

Lemma decode_event_length b p : decode_event b = Some p -> length (encode p) = length b.
Proof.
  unfold decode_event. destruct b as [|code [|len payload]]; try discriminate.
  destruct (negb _); [discriminate|].
  destruct (code =? 0x3E).
  { destruct payload as [|sub body]; [discriminate|].
    destruct (sub =? 2); [|destruct (sub =? 0x0D)].
    - destruct body as [|n l]; [discriminate|].
      destruct (decode_adv (N.to_nat n) l) as [rs|] eqn:E; [|discriminate].
      intros [= <-]. apply decode_adv_length in E as [E _]. cbn. now rewrite E.
    - destruct body as [|n l]; [discriminate|].
      destruct (decode_ext (N.to_nat n) l) as [rs|] eqn:E; [|discriminate].
      intros [= <-]. apply decode_ext_length in E as [E _]. cbn. now rewrite E.
    - intros [= <-]. reflexivity. }
  destruct (code =? 0x0E).
  { destruct payload as [|num [|o0 [|o1 body]]]; try discriminate.
    destruct (_ =? 0x0C14); [|destruct (_ =? 0x0C51)].
    - destruct body as [|st name]; [discriminate|]. destruct (Nat.eqb _ _); [|discriminate].
      intros [= <-]. reflexivity.
    - destruct body as [|st [|fec eir]]; try discriminate. destruct (Nat.eqb _ _); [|discriminate].
      intros [= <-]. reflexivity.
    - intros [= <-]. reflexivity. }
  destruct (code =? 0x07).
  { destruct payload as [|st l]; [discriminate|].
    destruct (take 6 l) as [[addr name]|] eqn:T; [|discriminate]. apply take_inv in T as [-> Ha].
    destruct (Nat.eqb _ _); [|discriminate]. intros [= <-]. reflexivity. }
  destruct (code =? 0x2F).
  { destruct payload as [|st l]; [discriminate|].
    destruct (take 6 l) as [[addr l']|] eqn:T; [|discriminate]. apply take_inv in T as [-> Ha].
    destruct l' as [|psrm [|rs [|c0 [|c1 [|c2 [|k0 [|k1 [|rssi eir]]]]]]]]; try discriminate.
    destruct (_ && _); [|discriminate]. intros [= <-].
    cbn [encode]. unfold event. cbn [app length]. rewrite !app_length. reflexivity. }
  intros [= <-]. reflexivity.
Qed.

Lemma decode_length i b p : decode i b = Some p -> length (encode p) = length b.
Proof.
  unfold decode. destruct (i =? 1); [apply decode_command_length|].
  destruct (i =? 2).
  { unfold decode_acl. destruct b as [|h0 [|h1 [|s0 [|s1 d]]]]; try discriminate.
    destruct (_ =? _); [|discriminate]. intros [= <-]. reflexivity. }
  destruct (i =? 3).
  { unfold decode_sco. destruct b as [|h0 [|h1 [|s0 d]]]; try discriminate.
    destruct (_ =? _); [|discriminate]. intros [= <-]. reflexivity. }
  destruct (i =? 4); [apply decode_event_length|].
  unfold decode_iso. destruct b as [|h0 [|h1 [|s0 [|s1 d]]]]; try discriminate.
  destruct (_ =? _); [|discriminate]. intros [= <-]. reflexivity.
Qed.

Lemma filter_hci_length m b i m' out : names_ok m ->
  filter_hci_packet m b i = Some (m', out) -> names_ok m' /\ length out = length b.
Proof.
  intros Hm. unfold filter_hci_packet. destruct (_ && _).
  2:{ intros [= <- <-]. auto. }
  destruct (decode i b) as [p|] eqn:D; [|discriminate]. apply decode_length in D.
  assert (G : forall m1 p1, filter_packet m p = (m1, p1) -> Some (m1, encode p1) = Some (m', out) ->
    names_ok m' /\ length out = length b).
  { intros m1 p1 E [= <- <-]. apply filter_packet_shape in E as (E1 & _ & E3 & _); [|exact Hm].
    split; [exact E1|congruence]. }
  destruct p; try (destruct (filter_packet m _) as [m1 p1] eqn:E; intros K; now apply (G m1 p1));
    intros [= <- <-]; auto.
Qed.

Lemma filter_all_lengths ps : forall m m' outs, names_ok m -> filter_all m ps = Some (m', outs) ->
  Forall2 (fun p o => length o = length (fst p)) ps outs.
Proof.
  induction ps as [|[b i] ps IH]; intros m m' outs Hm; cbn.
  { intros [= <- <-]. constructor. }
  destruct (filter_hci_packet m b i) as [[m1 o]|] eqn:E1; [|discriminate].
  destruct (filter_all m1 ps) as [[m2 os]|] eqn:E2; [|discriminate]. intros [= <- <-].
  apply filter_hci_length in E1 as [O1 L1]; [|exact Hm].
  constructor; [exact L1|]. now apply IH with m1 m2.
Qed.

(** ** Names already seen keep their pseudonym *)

Definition extends (m m' : name_map) : Prop := exists x, m' = m ++ x.

Lemma extends_refl m : extends m m.
Proof. exists []. now rewrite app_nil_r. Qed.
Lemma extends_trans a b c : extends a b -> extends b c -> extends a c.
Proof. intros [x ->] [y ->]. exists (x ++ y). now rewrite app_assoc. Qed.

Lemma find_name_app m x n new : find_name m n = Some new -> find_name (m ++ x) n = Some new.
Proof.
  induction m as [|[o w] m IH]; cbn; [discriminate|].
  destruct (list_eqb o n); [auto|exact IH].
Qed.

Lemma find_name_new m n w : find_name m n = None -> find_name (m ++ [(n, w)]) n = Some w.
Proof.
  induction m as [|[o v] m IH]; cbn.
  - now rewrite list_eqb_refl.
  - destruct (list_eqb o n); [discriminate|exact IH].
Qed.

Lemma change_extends pd m n m' new : change_device_name pd m n = (m', new) ->
  extends m m' /\ find_name m' n = Some new.
Proof.
  unfold change_device_name. destruct (find_name m n) as [w|] eqn:E; intros [= <- <-].
  - split; [apply extends_refl|exact E].
  - split; [now eexists|]. now apply find_name_new.
Qed.

Lemma change_again pd pd' m n m1 new m2 : change_device_name pd m n = (m1, new) -> extends m1 m2 ->
  change_device_name pd' m2 n = (m2, new).
Proof.
  intros E [x ->]. apply change_extends in E as [_ E].
  unfold change_device_name. now rewrite (find_name_app _ x _ _ E).
Qed.

Lemma gap_loop_extends f : forall m l m' r, filter_gap_loop f m l = (m', r) -> extends m m'.
Proof.
  induction f as [|f IH]; intros m l m' r; cbn [filter_gap_loop].
  { intros [= <- <-]. apply extends_refl. }
  destruct l as [|len [|ty l]]; try (intros [= <- <-]; apply extends_refl).
  destruct (Nat.ltb _ _); [intros [= <- <-]; apply extends_refl|].
  destruct (len =? 0).
  { destruct (filter_gap_loop f m _) as [m1 r1] eqn:E. intros [= <- <-]. now apply IH in E. }
  destruct (is_name_type ty).
  - destruct (change_device_name _ _ _) as [m1 new] eqn:Ec.
    destruct (filter_gap_loop f m1 _) as [m2 r2] eqn:E. intros [= <- <-].
    apply IH in E. apply change_extends in Ec as [Ec _]. now apply extends_trans with m1.
  - destruct (filter_gap_loop f m _) as [m1 r1] eqn:E. intros [= <- <-]. now apply IH in E.
Qed.

Lemma gap_loop_again f : forall m l m1 r m2, filter_gap_loop f m l = (m1, r) -> extends m1 m2 ->
  filter_gap_loop f m2 l = (m2, r).
Proof.
  induction f as [|f IH]; intros m l m1 r m2; cbn [filter_gap_loop].
  { intros [= <- <-]. auto. }
  destruct l as [|len [|ty l]]; try (intros [= <- <-]; now auto).
  destruct (Nat.ltb _ _); [intros [= <- <-]; auto|].
  destruct (len =? 0).
  { destruct (filter_gap_loop f m _) as [ma ra] eqn:E. intros [= <- <-] X.
    now rewrite (IH _ _ _ _ _ E X). }
  destruct (is_name_type ty).
  - destruct (change_device_name _ _ _) as [ma new] eqn:Ec.
    destruct (filter_gap_loop f ma _) as [mb rb] eqn:E. intros [= <- <-] X.
    pose proof (gap_loop_extends _ _ _ _ _ E) as X1.
    rewrite (change_again _ true _ _ _ _ m2 Ec) by now apply extends_trans with mb.
    now rewrite (IH _ _ _ _ _ E X).
  - destruct (filter_gap_loop f m _) as [ma ra] eqn:E. intros [= <- <-] X.
    now rewrite (IH _ _ _ _ _ E X).
Qed.

Lemma filter_adv_again rs : forall m m1 o m2, filter_adv m rs = (m1, o) -> extends m1 m2 ->
  extends m m1 /\ filter_adv m2 rs = (m2, o).
Proof.
  induction rs as [|r rs IH]; intros m m1 o m2; cbn.
  { intros [= <- <-] _. split; [apply extends_refl|reflexivity]. }
  destruct (filter_gap m (ar_data r)) as [ma d] eqn:E1.
  destruct (filter_adv ma rs) as [mb os] eqn:E2. intros [= <- <-] X.
  pose proof (IH _ _ _ m2 E2 X) as [X2 E2'].
  pose proof (gap_loop_extends _ _ _ _ _ E1) as X1.
  split; [now apply extends_trans with ma|].
  rewrite (gap_loop_again _ _ _ _ _ m2 E1 (extends_trans _ _ _ X2 X) : filter_gap m2 (ar_data r) = _).
  now rewrite E2'.
Qed.

Lemma filter_ext_again rs : forall m m1 o m2, filter_ext m rs = (m1, o) -> extends m1 m2 ->
  extends m m1 /\ filter_ext m2 rs = (m2, o).
Proof.
  induction rs as [|r rs IH]; intros m m1 o m2; cbn.
  { intros [= <- <-] _. split; [apply extends_refl|reflexivity]. }
  destruct (filter_gap m (er_data r)) as [ma d] eqn:E1.
  destruct (filter_ext ma rs) as [mb os] eqn:E2. intros [= <- <-] X.
  pose proof (IH _ _ _ m2 E2 X) as [X2 E2'].
  pose proof (gap_loop_extends _ _ _ _ _ E1) as X1.
  split; [now apply extends_trans with ma|].
  rewrite (gap_loop_again _ _ _ _ _ m2 E1 (extends_trans _ _ _ X2 X) : filter_gap m2 (er_data r) = _).
  now rewrite E2'.
Qed.

Lemma filter_packet_again p m m1 q m2 : filter_packet m p = (m1, q) -> extends m1 m2 ->
  extends m m1 /\ filter_packet m2 p = (m2, q).
Proof.
  destruct p; cbn [filter_packet].
  all: repeat match goal with |- context [if ?c then _ else _] => destruct c end.
  all: try (intros [= <- <-] _; split; [apply extends_refl|reflexivity]).
  all: try (match goal with |- context [change_device_name ?a ?b ?c] =>
      destruct (change_device_name a b c) as [ma n] eqn:E end; intros [= <- <-] X;
    pose proof (proj1 (change_extends _ _ _ _ _ E)) as X1;
    rewrite (change_again _ false _ _ _ _ m2 E X); now split).
  all: try (match goal with |- context [filter_gap ?b ?c] =>
      destruct (filter_gap b c) as [ma n] eqn:E end; intros [= <- <-] X;
    pose proof (gap_loop_extends _ _ _ _ _ E) as X1;
    pose proof (gap_loop_again _ _ _ _ _ m2 E X) as E2; unfold filter_gap; rewrite E2; now split).
  - destruct (filter_adv m rs) as [ma o] eqn:E. intros [= <- <-] X.
    apply filter_adv_again with (m2 := m2) in E as [X1 E]; [|exact X]. rewrite E. now split.
  - destruct (filter_ext m rs) as [ma o] eqn:E. intros [= <- <-] X.
    apply filter_ext_again with (m2 := m2) in E as [X1 E]; [|exact X]. rewrite E. now split.
Qed.

Lemma filter_hci_again m b i m1 o m2 : filter_hci_packet m b i = Some (m1, o) -> extends m1 m2 ->
  extends m m1 /\ filter_hci_packet m2 b i = Some (m2, o).
Proof.
  unfold filter_hci_packet. destruct (_ && _).
  2:{ intros [= <- <-] _. split; [apply extends_refl|reflexivity]. }
  destruct (decode i b) as [p|]; [|discriminate].
  destruct p; try (intros [= <- <-] _; split; [apply extends_refl|reflexivity]);
    (match goal with |- context [filter_packet m ?p] =>
       destruct (filter_packet m p) as [ma q] eqn:E end; intros [= <- <-] X;
     apply filter_packet_again with (m2 := m2) in E as [X1 E]; [|exact X];
     rewrite E; now split).
Qed.

Lemma filter_hci_extends m b i m1 o : filter_hci_packet m b i = Some (m1, o) -> extends m m1.
Proof. intros E. now apply (filter_hci_again _ _ _ _ _ m1 E (extends_refl m1)). Qed.

Lemma filter_all_extends ps : forall m m1 os, filter_all m ps = Some (m1, os) -> extends m m1.
Proof.
  induction ps as [|[b i] ps IH]; intros m m1 os; cbn.
  { intros [= <- <-]. apply extends_refl. }
  destruct (filter_hci_packet m b i) as [[ma o]|] eqn:E1; [|discriminate].
  destruct (filter_all ma ps) as [[mb os']|] eqn:E2; [|discriminate]. intros [= <- <-].
  apply filter_hci_extends in E1. apply IH in E2. now apply extends_trans with ma.
Qed.

Lemma filter_all_nth ps : forall m m1 os k b i, filter_all m ps = Some (m1, os) ->
  nth_error ps k = Some (b, i) ->
  exists ma mb o, nth_error os k = Some o /\ filter_hci_packet ma b i = Some (mb, o) /\
    extends m ma /\ extends mb m1.
Proof.
  induction ps as [|[b0 i0] ps IH]; intros m m1 os k b i; cbn.
  { intros _ H. now destruct k. }
  destruct (filter_hci_packet m b0 i0) as [[ma o]|] eqn:E1; [|discriminate].
  destruct (filter_all ma ps) as [[mb os']|] eqn:E2; [|discriminate]. intros [= <- <-].
  destruct k as [|k]; cbn.
  - intros [= -> ->]. exists m, ma, o. repeat split; [exact E1|apply extends_refl|].
    now apply filter_all_extends in E2.
  - intros H. destruct (IH _ _ _ _ _ _ E2 H) as (mc & md & o' & H1 & H2 & H3 & H4).
    exists mc, md, o'. repeat split; auto. apply filter_hci_extends in E1.
    now apply extends_trans with ma.
Qed.

Lemma filter_same_packet ps m1 os j k b i oj ok : filter_all [] ps = Some (m1, os) ->
  nth_error ps j = Some (b, i) -> nth_error ps k = Some (b, i) ->
  nth_error os j = Some oj -> nth_error os k = Some ok -> oj = ok.
Proof.
  intros E J K HJ HK.
  destruct (filter_all_nth _ _ _ _ _ _ _ E J) as (ma & mb & o & A1 & A2 & A3 & A4).
  destruct (filter_all_nth _ _ _ _ _ _ _ E K) as (mc & md & o' & B1 & B2 & B3 & B4).
  apply (filter_hci_again _ _ _ _ _ m1) in A2 as [_ A2]; [|exact A4].
  apply (filter_hci_again _ _ _ _ _ m1) in B2 as [_ B2]; [|exact B4].
  congruence.
Qed.

Lemma filter_name_field m p n : name_of p = Some n ->
  filter_packet m p = let '(m', w) := change_device_name false m n in (m', with_name p w).
Proof.
  destruct p; cbn [name_of filter_packet with_name]; try discriminate.
  - intros [= <-]. reflexivity.
  - destruct (status =? 0); [|discriminate]. intros [= <-]. reflexivity.
  - destruct (status =? 0); [|discriminate]. intros [= <-]. reflexivity.
Qed.

Lemma nth_framed ps k p : nth_error ps k = Some p ->
  nth_error (map framed ps) k = Some (encode p, idc p).
Proof. intros H. now rewrite nth_error_map, H. Qed.

Lemma same_name_same_pseudonym ps m1 os j k p q n : filter_all [] (map framed ps) = Some (m1, os) ->
  Forall well_formed ps ->
  nth_error ps j = Some p -> nth_error ps k = Some q ->
  name_of p = Some n -> name_of q = Some n ->
  exists w, length w = length n /\
    nth_error os j = Some (encode (with_name p w)) /\ nth_error os k = Some (encode (with_name q w)).
Proof.
  intros E W J K Hp Hq.
  assert (S : forall i r, nth_error ps i = Some r -> name_of r = Some n ->
    exists w, find_name m1 n = Some w /\ nth_error os i = Some (encode (with_name r w))).
  { intros i r Hi Hn.
    destruct (filter_all_nth _ _ _ _ _ _ _ E (nth_framed _ _ _ Hi)) as (ma & mb & o & A1 & A2 & A3 & A4).
    rewrite filter_encoded in A2 by (eapply Forall_forall; [exact W|]; now apply nth_error_In in Hi).
    rewrite (filter_name_field _ _ _ Hn) in A2.
    destruct (change_device_name false ma n) as [mc w] eqn:C. injection A2 as <- <-.
    apply change_extends in C as [_ C]. destruct A4 as [x ->].
    exists w. split; [now apply find_name_app|exact A1]. }
  destruct (S _ _ J Hp) as (w & F1 & O1). destruct (S _ _ K Hq) as (w' & F2 & O2).
  assert (w' = w) by congruence. subst w'. exists w. repeat split; auto.
  assert (N1 : names_ok m1).
  { clear -E. assert (G : forall l m m' o, names_ok m -> filter_all m l = Some (m', o) -> names_ok m').
    { induction l as [|[b i] l IH]; intros m m' o Hm; cbn; [intros [= <- <-]; exact Hm|].
      destruct (filter_hci_packet m b i) as [[ma oa]|] eqn:E1; [|discriminate].
      destruct (filter_all ma l) as [[mb ob]|] eqn:E2; [|discriminate]. intros [= <- <-].
      apply filter_hci_length in E1 as [E1 _]; [|exact Hm]. now apply IH in E2. }
    eapply G; [|exact E]. constructor. }
  now apply find_name_length with m1.
Qed.

Lemma filter_all_app ps : forall qs m m1 os, filter_all m (ps ++ qs) = Some (m1, os) ->
  exists ma o1, filter_all m ps = Some (ma, o1) /\ firstn (length ps) os = o1.
Proof.
  induction ps as [|[b i] ps IH]; intros qs m m1 os; cbn.
  { intros _. eexists _, _. split; reflexivity. }
  destruct (filter_hci_packet m b i) as [[ma o]|] eqn:E1; [|discriminate].
  destruct (filter_all ma (ps ++ qs)) as [[mb os']|] eqn:E2; [|discriminate]. intros [= <- <-].
  apply IH in E2 as (mc & o1 & -> & E3). eexists _, _. split; [reflexivity|]. cbn. now rewrite E3.
Qed.

Lemma pseudonyms_ignore_later ps qs qs' m1 os m2 os' :
  filter_all [] (ps ++ qs) = Some (m1, os) -> filter_all [] (ps ++ qs') = Some (m2, os') ->
  firstn (length ps) os = firstn (length ps) os'.
Proof.
  intros A B. apply filter_all_app in A as (ma & oa & A & <-).
  apply filter_all_app in B as (mb & ob & B & <-). congruence.
Qed.

(** ** The capture does not depend on names and payloads *)

Definition ren (f : list N -> list N) (m : name_map) : name_map :=
  map (fun e => (f (fst e), snd e)) m.

Section Renaming.
Variable f : list N -> list N.
Hypothesis Hf : renaming f.

Lemma list_eqb_ren a b : list_eqb (f a) (f b) = list_eqb a b.
Proof.
  destruct Hf as (Hi & _). destruct (list_eqb a b) eqn:E.
  - apply list_eqb_eq in E. subst. apply list_eqb_refl.
  - destruct (list_eqb (f a) (f b)) eqn:E2; [|reflexivity].
    apply list_eqb_eq, Hi in E2. subst. now rewrite list_eqb_refl in E.
Qed.

Lemma find_ren m n : find_name (ren f m) (f n) = find_name m n.
Proof. induction m as [|[o w] m IH]; cbn; [reflexivity|]. rewrite list_eqb_ren. now destruct (list_eqb o n). Qed.

Lemma change_ren pd m n : change_device_name pd (ren f m) (f n) =
  let '(m', w) := change_device_name pd m n in (ren f m', w).
Proof.
  unfold change_device_name. rewrite find_ren. destruct (find_name m n); [reflexivity|].
  unfold lenN, ren. rewrite map_length, map_app. cbn.
  destruct Hf as (_ & Hl & _). now rewrite Hl.
Qed.

Lemma gap_ren k : forall m l, (length l <= 248)%nat ->
  filter_gap_loop k (ren f m) l = let '(m', r) := filter_gap_loop k m l in (ren f m', r).
Proof.
  induction k as [|k IH]; intros m l Hl; cbn [filter_gap_loop]; [reflexivity|].
  destruct l as [|len [|ty l]]; try reflexivity.
  destruct (Nat.ltb_spec (length (len :: ty :: l)) (N.to_nat len + 1)) as [H|H]; [reflexivity|].
  cbn [tl]. set (body := ty :: l) in *.
  assert (Hb : (length body <= 247)%nat) by (subst body; cbn in *; lia).
  assert (Hs : (length (skipn (N.to_nat len) body) <= 248)%nat) by (rewrite skipn_length; lia).
  destruct (len =? 0).
  { rewrite IH by lia. now destruct (filter_gap_loop k m body). }
  destruct (is_name_type ty).
  - set (region := firstn (N.to_nat len - 1) (firstn (N.to_nat len) body)).
    assert (Hr : f region = region).
    { apply Hf. subst region. rewrite firstn_length, firstn_length. lia. }
    rewrite <- Hr at 1. rewrite change_ren.
    destruct (change_device_name true m region) as [m1 new].
    rewrite IH by exact Hs. now destruct (filter_gap_loop k m1 _).
  - rewrite IH by exact Hs. now destruct (filter_gap_loop k m _).
Qed.

Lemma adv_ren rs : forall m, Forall (fun d => (length d <= 248)%nat) (map ar_data rs) ->
  filter_adv (ren f m) rs = let '(m', r) := filter_adv m rs in (ren f m', r).
Proof.
  induction rs as [|r rs IH]; intros m; cbn; [reflexivity|]. inversion 1; subst.
  unfold filter_gap. rewrite gap_ren by assumption.
  destruct (filter_gap_loop _ m _) as [m1 d]. rewrite IH by assumption.
  now destruct (filter_adv m1 rs).
Qed.
Lemma ext_ren rs : forall m, Forall (fun d => (length d <= 248)%nat) (map er_data rs) ->
  filter_ext (ren f m) rs = let '(m', r) := filter_ext m rs in (ren f m', r).
Proof.
  induction rs as [|r rs IH]; intros m; cbn; [reflexivity|]. inversion 1; subst.
  unfold filter_gap. rewrite gap_ren by assumption.
  destruct (filter_gap_loop _ m _) as [m1 d]. rewrite IH by assumption.
  now destruct (filter_ext m1 rs).
Qed.

Lemma packet_ren m p p' : differ_in_user_data f p p' ->
  Forall (fun d => (length d <= 248)%nat) (gap_of p) ->
  filter_packet (ren f m) p' = let '(m', q) := filter_packet m p in (ren f m', q).
Proof.
  intros D G. destruct D as [p n Hn|p d d' Hd Hl|p Hn Hd].
  - rewrite (filter_name_field _ _ _ Hn).
    assert (Hn' : name_of (with_name p (f n)) = Some (f n)).
    { destruct p; cbn in *; try discriminate; try reflexivity; now destruct (status =? 0). }
    rewrite (filter_name_field _ _ _ Hn'), change_ren.
    destruct (change_device_name false m n). f_equal. now destruct p.
  - destruct p; cbn in *; try discriminate; injection Hd as ->; now rewrite Hl.
  - destruct p; cbn in *; try discriminate; try reflexivity;
      repeat match goal with H : (if ?c then _ else _) = None |- _ =>
        destruct c; try discriminate end; try reflexivity;
      repeat match goal with |- context [if ?c then _ else _] => destruct c end; try reflexivity.
    all: try (inversion_clear G; unfold filter_gap; rewrite gap_ren by assumption;
      match goal with |- context [filter_gap_loop ?a ?b ?c] => destruct (filter_gap_loop a b c) end;
      reflexivity).
    + rewrite adv_ren by assumption. now destruct (filter_adv m rs).
    + rewrite ext_ren by assumption. now destruct (filter_ext m rs).
Qed.

Lemma differ_wf p p' : differ_in_user_data f p p' -> well_formed p -> well_formed p'.
Proof.
  pose proof (proj1 (proj2 Hf)) as Hl.
  intros D W. destruct D as [p n Hn|p d d' Hd Hd'|p Hn Hd]; [| |exact W].
  - destruct p; cbn in *; try discriminate; try exact W;
      repeat match goal with H : (if ?c then _ else _) = Some _ |- _ =>
        destruct c; try discriminate end; injection Hn as <-; rewrite Hl; exact W.
  - destruct p; cbn in *; try discriminate; injection Hd as <-; unfold lenN in *;
      rewrite ?Hd'; exact W.
Qed.

Lemma capture_ren ps : forall ps' m, Forall2 (differ_in_user_data f) ps ps' ->
  Forall well_formed ps ->
  Forall (fun p => Forall (fun d => (length d <= 248)%nat) (gap_of p)) ps ->
  filter_all (ren f m) (map framed ps') =
  match filter_all m (map framed ps) with
  | Some (m', os) => Some (ren f m', os)
  | None => None
  end.
Proof.
  induction ps as [|p ps IH]; intros ps' m D W G; inversion D; subst; [reflexivity|].
  inversion W; subst. inversion G; subst. cbn [map filter_all].
  change (framed y) with (encode y, idc y). change (framed p) with (encode p, idc p).
  cbn iota. rewrite (filter_encoded _ y) by (apply (differ_wf p); assumption). rewrite (filter_encoded _ p) by assumption.
  rewrite (packet_ren m p y) by assumption.
  destruct (filter_packet m p) as [m1 q]. rewrite IH by assumption.
  destruct (filter_all m1 _) as [[m2 os]|]; reflexivity.
Qed.
End Renaming.

Lemma capture_hides_user_data f ps ps' m os m' os' : renaming f ->
  Forall2 (differ_in_user_data f) ps ps' ->
  Forall well_formed ps ->
  Forall (fun p => Forall (fun d => (length d <= 248)%nat) (gap_of p)) ps ->
  filter_all [] (map framed ps) = Some (m, os) ->
  filter_all [] (map framed ps') = Some (m', os') -> os' = os.
Proof.
  intros Hf D W G E E'. pose proof (capture_ren f Hf ps ps' [] D W G) as H.
  cbn [ren map] in H. rewrite E, E' in H. now injection H.
Qed.

Lemma capture_total ps m : Forall well_formed ps -> exists m' os, filter_all m (map framed ps) = Some (m', os).
Proof.
  intros W. revert m. induction W as [|p ps Wp W IH]; intros m; [now eexists _, _|].
  cbn [map filter_all]. change (framed p) with (encode p, idc p). cbn iota. rewrite (filter_encoded m p Wp).
  destruct (filter_packet m p) as [m1 q]. destruct (IH m1) as (m2 & os & ->). now eexists _, _.
Qed.

(** ** GAP data *)

Lemma gap_loop_fuel : forall f g m l, (length l <= f)%nat -> (length l <= g)%nat ->
  filter_gap_loop f m l = filter_gap_loop g m l.
Proof.
  induction f as [|f IH]; intros g m l Hf Hg.
  { destruct l; [|cbn in Hf; lia]. destruct g; reflexivity. }
  destruct g as [|g]. { destruct l; [reflexivity|cbn in Hg; lia]. }
  cbn [filter_gap_loop]. destruct l as [|len [|ty l]]; try reflexivity.
  destruct (Nat.ltb _ _); [reflexivity|]. cbn [tl]. cbn [length] in *.
  destruct (N.eqb_spec len 0) as [H0|H0].
  { rewrite (IH g m (ty :: l)) by (cbn; lia). reflexivity. }
  set (body := ty :: l) in *.
  assert (Hs : forall x, filter_gap_loop f x (skipn (N.to_nat len) body) =
    filter_gap_loop g x (skipn (N.to_nat len) body)).
  { intros x. apply IH; rewrite skipn_length; subst body; cbn [length]; lia. }
  destruct (is_name_type ty).
  - destruct (change_device_name _ _ _) as [m1 new]. now rewrite Hs.
  - now rewrite Hs.
Qed.

Lemma firstn_len {A} n (a b : list A) : n = length a -> firstn n (a ++ b) = a.
Proof. apply firstn_app_exact. Qed.
Lemma skipn_len {A} n (a b : list A) : n = length a -> skipn n (a ++ b) = b.
Proof. intros ->. rewrite skipn_app, Nat.sub_diag, skipn_all. reflexivity. Qed.

Lemma gap_step m a rest : ad_ok a ->
  filter_gap m (ad_bytes a ++ rest) =
  if is_name a then
    let '(m1, new) := change_device_name true m (removelast (ad_type a :: ad_data a)) in
    let '(m2, r) := filter_gap m1 rest in
    (m2, (1 + lenN (ad_data a)) :: new ++ [last (ad_type a :: ad_data a) 0] ++ r)
  else
    let '(m2, r) := filter_gap m rest in (m2, ad_bytes a ++ r).
Proof.
  unfold ad_ok. intros Ha. destruct a as [ty d]. cbn [ad_type ad_data] in *.
  unfold filter_gap at 1. unfold ad_bytes. cbn [ad_type ad_data app].
  change (length (1 + lenN d :: ty :: d ++ rest)) with (S (length ((ty :: d) ++ rest))).
  remember (length ((ty :: d) ++ rest)) as k eqn:Hk. cbn [filter_gap_loop].
  destruct (Nat.ltb_spec (length (1 + lenN d :: ty :: d ++ rest)) (N.to_nat (1 + lenN d) + 1)) as [H|H].
  { cbn [length] in H. rewrite app_length in H. unfold lenN in H. lia. }
  cbn [tl]. destruct (N.eqb_spec (1 + lenN d) 0) as [H0|H0]; [lia|].
  change (ty :: d ++ rest) with ((ty :: d) ++ rest).
  assert (HL : N.to_nat (1 + lenN d) = length (ty :: d)) by (unfold lenN; cbn; lia).
  rewrite !HL.
  rewrite (firstn_len _ (ty :: d) rest) by reflexivity.
  rewrite (skipn_len _ (ty :: d) rest) by reflexivity.
  unfold is_name. cbn [ad_type].
  unfold is_name_type.
  assert (F : forall x, filter_gap_loop k x rest = filter_gap x rest).
  { intros x. subst k. unfold filter_gap. apply gap_loop_fuel; [rewrite app_length; lia|lia]. }
  destruct ((ty =? 8) || (ty =? 9)).
  - assert (R : firstn (length (ty :: d) - 1) (ty :: d) = removelast (ty :: d)).
    { rewrite removelast_firstn_len. f_equal. lia. }
    rewrite R.
    assert (K : skipn (length (ty :: d) - 1) (ty :: d) = [last (ty :: d) 0]).
    { rewrite (app_removelast_last 0 (l := ty :: d)) at 2 by discriminate.
      apply skipn_len. rewrite <- R, firstn_length. cbn [length]. lia. }
    rewrite K. destruct (change_device_name true m _) as [m1 new]. now rewrite F.
  - now rewrite F.
Qed.

Lemma gap_zeros k m : filter_gap m (repeat 0 k) = (m, repeat 0 k).
Proof.
  unfold filter_gap. rewrite repeat_length. induction k as [|k IH]; [reflexivity|].
  cbn [filter_gap_loop repeat]. destruct k as [|k]; [reflexivity|].
  cbn [repeat tl].
  destruct (Nat.ltb_spec (length (0 :: 0 :: repeat 0 k)) (N.to_nat 0 + 1)) as [H|H];
    [cbn in H; lia|].
  change (0 =? 0) with true. cbn iota.
  change (0 :: repeat 0 k) with (repeat 0 (S k)). rewrite IH. reflexivity.
Qed.

Lemma gap_structures ads k : forall m m' out, names_ok m -> Forall ad_ok ads ->
  filter_gap m (flat_map ad_bytes ads ++ repeat 0 k) = (m', out) ->
  exists outs, out = concat outs ++ repeat 0 k /\
    Forall2 (fun a o =>
      if is_name a then
        length o = length (ad_bytes a) /\ hd 0 o = hd 0 (ad_bytes a) /\
        last o 0 = last (ad_bytes a) 0
      else o = ad_bytes a) ads outs.
Proof.
  induction ads as [|a ads IH]; intros m m' out Hm Ha.
  { cbn [flat_map app]. rewrite gap_zeros. intros [= <- <-]. exists []. split; [reflexivity|constructor]. }
  inversion Ha as [|? ? Ha1 Ha2]; subst. cbn [flat_map]. rewrite <- app_assoc, gap_step by exact Ha1.
  destruct (is_name a) eqn:En.
  - destruct (change_device_name true m _) as [m1 new] eqn:C.
    destruct (filter_gap m1 _) as [m2 r] eqn:E. intros [= <- <-].
    apply change_length in C as [C1 C2]; [|exact Hm].
    apply IH in E as (outs & -> & F); [|exact C2|exact Ha2].
    exists (((1 + lenN (ad_data a)) :: new ++ [last (ad_type a :: ad_data a) 0]) :: outs). split.
    + cbn [concat]. rewrite <- !app_assoc. cbn [app]. rewrite <- app_assoc. reflexivity.
    + constructor; [|exact F]. rewrite En. split; [|split; [reflexivity|]].
      * unfold ad_bytes. cbn [length app]. rewrite app_length, C1. cbn [length].
        rewrite removelast_firstn_len, firstn_length. cbn [length Init.Nat.pred]. lia.
      * rewrite app_comm_cons, last_last. unfold ad_bytes. cbn [app].
        rewrite (app_removelast_last 0 (l := ad_type a :: ad_data a)) at 2 by discriminate.
        now rewrite app_comm_cons, last_last.
  - destruct (filter_gap m _) as [m2 r] eqn:E. intros [= <- <-].
    apply IH in E as (outs & -> & F); [|exact Hm|exact Ha2].
    exists (ad_bytes a :: outs). split; [cbn [concat]; now rewrite app_assoc|].
    constructor; [now rewrite En|exact F].
Qed.

(** ** The GAP name filter is off by one *)

Lemma gap_name_leaks m ty n x m' out : (ty = 8 \/ ty = 9) -> (length n <= 253)%nat ->
  filter_gap m (ad_bytes {| ad_type := ty; ad_data := n ++ [x] |}) = (m', out) ->
  last out 0 = x.
Proof.
  intros Ht Hn. rewrite <- (app_nil_r (ad_bytes _)), gap_step.
  2:{ unfold ad_ok. cbn. rewrite app_length. cbn. lia. }
  replace (is_name _) with true.
  2:{ unfold is_name. cbn. destruct Ht; subst; reflexivity. }
  destruct (change_device_name true m _) as [m1 new]. cbn [ad_type ad_data].
  destruct (filter_gap m1 []) as [m2 r] eqn:E.
  assert (r = []) by (cbn in E; congruence). subst r. intros K.
  assert (K2 : out = ((1 + lenN (n ++ [x])) :: new) ++ [last ((ty :: n) ++ [x]) 0])
    by (injection K; intros; subst; reflexivity).
  rewrite K2, last_last. apply last_last.
Qed.

Lemma gap_leak_witness : exists p p' m m' out out',
  well_formed p /\ well_formed p' /\
  p = LeSetAdvertisingData false (ad_bytes {| ad_type := 9; ad_data := [65; 66] |}) /\
  p' = LeSetAdvertisingData false (ad_bytes {| ad_type := 9; ad_data := [65; 67] |}) /\
  filter_all [] [framed p] = Some (m, [out]) /\
  filter_all [] [framed p'] = Some (m', [out']) /\ out <> out'.
Proof.
  eexists _, _, _, _, _, _. split; [|split; [|split; [reflexivity|split; [reflexivity|]]]].
  1, 2: cbn; lia.
  split; [vm_compute; reflexivity|]. split; [vm_compute; reflexivity|]. discriminate.
Qed.

Lemma gap_type_witness : exists a m out,
  ad_ok a /\ is_name a = true /\ filter_gap [] (ad_bytes a) = (m, out) /\
  nth 1 out 0 <> ad_type a.
Proof.
  exists {| ad_type := 9; ad_data := [65; 66; 67] |}. eexists _, _.
  split; [unfold ad_ok; cbn; lia|]. split; [reflexivity|].
  split; [vm_compute; reflexivity|]. vm_compute. discriminate.
Qed.

Lemma two_pseudonyms_witness : exists name m1 o1 m2 o2,
  filter_gap [] (ad_bytes {| ad_type := 8; ad_data := name |}) = (m1, o1) /\
  filter_gap m1 (ad_bytes {| ad_type := 9; ad_data := name |}) = (m2, o2) /\
  skipn 1 o1 <> skipn 1 o2 /\ length name = 12%nat.
Proof.
  exists (repeat 65 12). eexists _, _, _, _.
  split; [vm_compute; reflexivity|]. split; [vm_compute; reflexivity|].
  split; [vm_compute; discriminate|reflexivity].
Qed.

Lemma payload_zeroed m p d : well_formed p -> payload_of p = Some d ->
  filter_hci_packet m (encode p) (idc p) =
  Some (m, encode (with_payload p (repeat 0 (length d)))).
Proof.
  intros W H. rewrite filter_encoded by exact W.
  destruct p; cbn in H; try discriminate; injection H as <-; reflexivity.
Qed.

Lemma capture_types ps : Forall well_formed ps ->
  exists m outs, filter_all [] (map framed ps) = Some (m, outs) /\
  Forall2 (fun p o => exists q, o = encode q /\ idc q = idc p /\
    length o = length (encode p) /\
    firstn (header_size p) o = firstn (header_size p) (encode p)) ps outs.
Proof.
  intros W. assert (G : forall m, names_ok m -> exists m' outs,
    filter_all m (map framed ps) = Some (m', outs) /\
    Forall2 (fun p o => exists q, o = encode q /\ idc q = idc p /\
      length o = length (encode p) /\
      firstn (header_size p) o = firstn (header_size p) (encode p)) ps outs).
  { induction W as [|p ps Wp W IH]; intros m Hm; [now eexists _, _|].
    cbn [map filter_all]. change (framed p) with (encode p, idc p). cbn iota.
    rewrite (filter_encoded m p Wp). destruct (filter_packet m p) as [m1 q] eqn:E.
    apply filter_packet_shape in E as (E1 & E2 & E3 & E4); [|exact Hm].
    destruct (IH m1 E1) as (m2 & os & -> & F). eexists _, _. split; [reflexivity|].
    constructor; [|exact F]. exists q. auto. }
  apply G. constructor.
Qed.

(** A capture meeting the hypotheses of the theorems: two names, repeated, an
    ACL packet and GAP data. *)
Definition demo_name (x : N) : list N := repeat x 5 ++ repeat 0 243.
Definition demo_capture : list packet :=
  [WriteLocalName (demo_name 65); AclData 1 0x20 [1; 2; 3];
   RemoteNameRequestComplete 0 [1; 2; 3; 4; 5; 6] (demo_name 66);
   LeSetAdvertisingData false ([2; 1; 6] ++ ad_bytes {| ad_type := 9; ad_data := [65; 66] |});
   ReadLocalNameComplete 1 0 (demo_name 65)].
Example demo_capture_wf : Forall well_formed demo_capture.
Proof.
  repeat constructor; vm_compute; try reflexivity; auto with arith.
  all: intros H; discriminate.
Qed.
Example demo_capture_out : match filter_all [] (map framed demo_capture) with
  | Some (_, [o1; o2; o3; o4; o5]) =>
      firstn 10 (skipn 3 o1) = [35; 48; 48; 32; 100; 101; 118; 105; 99; 101] /\
      o2 = [1; 0x20; 3; 0; 0; 0; 0] /\
      firstn 3 (skipn 9 o3) = [35; 48; 49] /\
      skipn 3 o5 = [0x14; 0x0C; 0] ++ skipn 3 o1 /\
      firstn 8 (skipn 3 o4) = [7; 2; 1; 6; 3; 35; 48; 66]
  | _ => False
  end.
Proof. vm_compute. repeat split. Qed.

(** A renaming that is not the identity: exchange two names. *)
Definition swap_names (a b x : list N) : list N :=
  if list_eqb x a then b else if list_eqb x b then a else x.
Example swap_renaming : renaming (swap_names (demo_name 65) (demo_name 66)).
Proof.
  assert (Ha : length (demo_name 65) = 248%nat) by reflexivity.
  assert (Hb : length (demo_name 66) = 248%nat) by reflexivity.
  assert (Hn : demo_name 65 <> demo_name 66) by (vm_compute; discriminate).
  revert Ha Hb Hn. generalize (demo_name 65), (demo_name 66). intros a b Ha Hb Hn.
  unfold swap_names. repeat split.
  - intros x y. destruct (list_eqb x a) eqn:E1, (list_eqb y a) eqn:E2;
      rewrite ?list_eqb_eq in *; [congruence| | |].
    + destruct (list_eqb y b) eqn:E3; [rewrite list_eqb_eq in *; congruence|].
      intros <-. now rewrite list_eqb_refl in E3.
    + destruct (list_eqb x b) eqn:E3; [rewrite list_eqb_eq in *; congruence|].
      intros ->. now rewrite list_eqb_refl in E3.
    + destruct (list_eqb x b) eqn:E3, (list_eqb y b) eqn:E4; rewrite ?list_eqb_eq in *;
        try congruence; intros; subst; now rewrite list_eqb_refl in *.
  - intros x. destruct (list_eqb x a) eqn:E1; [rewrite list_eqb_eq in E1; congruence|].
    destruct (list_eqb x b) eqn:E2; [rewrite list_eqb_eq in E2; congruence|reflexivity].
  - intros x Hx. destruct (list_eqb x a) eqn:E1; [rewrite list_eqb_eq in E1; congruence|].
    destruct (list_eqb x b) eqn:E2; [rewrite list_eqb_eq in E2; congruence|reflexivity].
Qed.
