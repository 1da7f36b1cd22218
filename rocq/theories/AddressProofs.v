From Verif Require Import Prelude Address AddressSpec.
Open Scope N_scope.
Ltac Zify.zify_post_hook ::= Z.div_mod_to_equations.

Lemma digit_value_spec c d : digit_value c = Some d <-> hex_digit c d.
Proof.
  unfold digit_value. split.
  - destruct ((48 <=? c) && (c <=? 57)) eqn:E1.
    { intros E; injection E as <-. bsplit. replace c with (48 + (c - 48)) at 1 by lia. constructor; lia. }
    destruct ((97 <=? c) && (c <=? 102)) eqn:E2.
    { intros E; injection E as <-. bsplit. replace c with (87 + (c - 87)) at 1 by lia. constructor; lia. }
    destruct ((65 <=? c) && (c <=? 70)) eqn:E3; [|discriminate].
    intros E; injection E as <-. bsplit. replace c with (55 + (c - 55)) at 1 by lia. constructor; lia.
  - intros H; destruct H as [d H|d H|d H].
    + replace ((48 <=? 48 + d) && (48 + d <=? 57)) with true by lia. f_equal; lia.
    + replace ((48 <=? 87 + d) && (87 + d <=? 57)) with false by lia.
      replace ((97 <=? 87 + d) && (87 + d <=? 102)) with true by lia. f_equal; lia.
    + replace ((48 <=? 55 + d) && (55 + d <=? 57)) with false by lia.
      replace ((97 <=? 55 + d) && (55 + d <=? 102)) with false by lia.
      replace ((65 <=? 55 + d) && (55 + d <=? 70)) with true by lia. f_equal; lia.
Qed.

Lemma hex_digit_range c d : hex_digit c d -> d < 16 /\ c <> 58 /\ is_space c = false /\ c <> 45 /\ c <> 43.
Proof. intros H; destruct H; unfold is_space; lia. Qed.

Lemma is_space_spec c : is_space c = true <-> c = 32 \/ 9 <= c <= 13.
Proof. unfold is_space; lia. Qed.

Lemma to_uint8_pos v : v < 256 -> to_uint8 (Z.of_N v) = v.
Proof. unfold to_uint8; lia. Qed.

Lemma to_uint8_neg v : v < 256 -> to_uint8 (- Z.of_N v) = (256 - v) mod 256.
Proof. unfold to_uint8; intros. lia. Qed.

Lemma strtol_one d1 : strtol16 [d1] =
  match digit_value d1 with Some d => Some (Z.of_N d, []) | None => None end.
Proof.
  unfold strtol16. cbn [skip_spaces].
  destruct (is_space d1) eqn:Es.
  - destruct (digit_value d1) eqn:E; [|reflexivity].
    apply digit_value_spec, hex_digit_range in E. destruct E as (_ & _ & E & _). congruence.
  - destruct (N.eqb_spec d1 45) as [->|H1]; [reflexivity|].
    destruct (N.eqb_spec d1 43) as [->|H2]; [reflexivity|].
    cbn [skip_prefix strtol_digits]. destruct (digit_value d1) as [d|]; [|reflexivity].
    f_equal.
Qed.

Lemma parse_token_spec t b : parse_token t = Some b <-> loose_pair t b.
Proof.
  split.
  - unfold parse_token. destruct t as [|c1 [|c2 [|]]]; try discriminate. cbn [length Nat.eqb negb].
    unfold strtol16. cbn [skip_spaces].
    destruct (is_space c1) eqn:Es1.
    + assert (E1 := strtol_one c2). unfold strtol16 in E1. cbn [skip_spaces] in E1.
      rewrite E1. destruct (digit_value c2) as [d|] eqn:E; [|discriminate].
      apply digit_value_spec in E. intros H; injection H as <-.
      rewrite to_uint8_pos by (apply hex_digit_range in E; lia).
      apply loose_blank; [now apply is_space_spec|assumption].
    + destruct (N.eqb_spec c1 45) as [->|H1].
      { cbn [skip_prefix strtol_digits]. destruct (digit_value c2) as [d|] eqn:E; [|discriminate].
        apply digit_value_spec in E. intros H; injection H as <-.
        replace (16 * 0 + d) with d by lia.
        rewrite to_uint8_neg by (apply hex_digit_range in E; lia). now constructor. }
      destruct (N.eqb_spec c1 43) as [->|H2].
      { cbn [skip_prefix strtol_digits]. destruct (digit_value c2) as [d|] eqn:E; [|discriminate].
        apply digit_value_spec in E. intros H; injection H as <-.
        replace (16 * 0 + d) with d by lia.
        rewrite to_uint8_pos by (apply hex_digit_range in E; lia). now constructor. }
      cbn [skip_prefix strtol_digits]. destruct (digit_value c1) as [d1|] eqn:E1; [|discriminate].
      destruct (digit_value c2) as [d2|] eqn:E2; [|discriminate].
      apply digit_value_spec in E1, E2. intros H; injection H as <-.
      replace (16 * (16 * 0 + d1) + d2) with (16 * d1 + d2) by lia.
      rewrite to_uint8_pos by (apply hex_digit_range in E1, E2; lia).
      constructor. now constructor.
  - intros H. destruct H as [t b H|c d1 d Hc H|d1 d H|d1 d H].
    + destruct H as [c1 c2 d1 d2 H1 H2]. unfold parse_token, strtol16.
      cbn [length Nat.eqb negb skip_spaces].
      pose proof (hex_digit_range _ _ H1) as (K1 & K2 & K3 & K4 & K5).
      pose proof (hex_digit_range _ _ H2) as (J1 & J2 & J3 & J4 & J5).
      rewrite K3. apply N.eqb_neq in K4, K5. rewrite K4, K5.
      apply digit_value_spec in H1, H2.
      cbn [skip_prefix strtol_digits]. rewrite H1, H2.
      f_equal. rewrite to_uint8_pos; lia.
    + pose proof (hex_digit_range _ _ H) as (J1 & J2 & J3 & J4 & J5).
      apply is_space_spec in Hc. unfold parse_token, strtol16.
      cbn [length Nat.eqb negb skip_spaces]. rewrite Hc, J3.
      apply N.eqb_neq in J4, J5. rewrite J4, J5. apply digit_value_spec in H.
      cbn [skip_prefix strtol_digits]. rewrite H. f_equal. rewrite to_uint8_pos; lia.
    + pose proof (hex_digit_range _ _ H) as (J1 & _).
      apply digit_value_spec in H. unfold parse_token, strtol16.
      cbn [length Nat.eqb negb skip_spaces]. change (is_space 43) with false. cbn match.
      change (43 =? 45) with false. change (43 =? 43) with true. cbn match.
      cbn [skip_prefix strtol_digits]. rewrite H. f_equal. rewrite to_uint8_pos; lia.
    + pose proof (hex_digit_range _ _ H) as (J1 & _).
      apply digit_value_spec in H. unfold parse_token, strtol16.
      cbn [length Nat.eqb negb skip_spaces]. change (is_space 45) with false. cbn match.
      change (45 =? 45) with true. cbn match.
      cbn [skip_prefix strtol_digits]. rewrite H. f_equal.
      replace (16 * 0 + d) with d by lia. apply to_uint8_neg. lia.
Qed.

Lemma loose_pair_shape t b : loose_pair t b -> length t = 2%nat /\ ~ In 58 t /\ b < 256.
Proof.
  intros H. destruct H as [t b H|c d1 d Hc H|d1 d H|d1 d H].
  - destruct H as [c1 c2 d1 d2 H1 H2]. apply hex_digit_range in H1, H2. cbn. lia.
  - apply hex_digit_range in H. cbn. lia.
  - apply hex_digit_range in H. cbn. lia.
  - apply hex_digit_range in H. cbn. lia.
Qed.

(** ---- Splitting ---- *)

Fixpoint join (ts : list (list N)) : list N :=
  match ts with
  | [] => []
  | [t] => t
  | t :: ts' => t ++ 58 :: join ts'
  end.

Lemma join_cons t ts : ts <> [] -> join (t :: ts) = t ++ 58 :: join ts.
Proof. destruct ts; [congruence|reflexivity]. Qed.

Lemma getline_inv s : forall cur ts, getline_tokens cur s = ts ->
  cur ++ s = join ts \/ cur ++ s = join ts ++ [58].
Proof.
  induction s as [|c s IH]; intros cur ts E; cbn in E.
  - left. rewrite app_nil_r. destruct cur; subst ts; reflexivity.
  - destruct (N.eqb_spec c 58) as [->|Hc].
    + subst ts. specialize (IH [] _ eq_refl). cbn [app] in IH.
      destruct (getline_tokens [] s) as [|t ts] eqn:E2.
      * right. destruct s as [|c2 s]; [reflexivity|]. destruct IH as [IH|IH]; [discriminate|].
        cbn in IH. injection IH as -> ->. cbn in E2. discriminate.
      * rewrite join_cons by discriminate. destruct IH as [IH|IH]; [left|right]; rewrite IH.
        -- reflexivity.
        -- rewrite <- app_assoc. reflexivity.
    + specialize (IH (cur ++ [c]) ts E). rewrite <- app_assoc in IH. exact IH.
Qed.

Lemma getline_token t : forall cur s, ~ In 58 t ->
  getline_tokens cur (t ++ s) = getline_tokens (cur ++ t) s.
Proof.
  induction t as [|c t IH]; intros cur s Hn; cbn.
  - now rewrite app_nil_r.
  - destruct (N.eqb_spec c 58) as [->|Hc]; [exfalso; apply Hn; left; reflexivity|].
    rewrite IH by (intros K; apply Hn; right; exact K). rewrite <- app_assoc. reflexivity.
Qed.

Lemma getline_colon cur s : getline_tokens cur (58 :: s) = cur :: getline_tokens [] s.
Proof. reflexivity. Qed.

Lemma getline_last t : t <> [] -> ~ In 58 t -> getline_tokens [] t = [t].
Proof.
  intros Hne Hn. rewrite <- (app_nil_r t) at 1. rewrite getline_token by assumption.
  cbn. destruct t; [congruence|reflexivity].
Qed.

Lemma from_string_spec s a : from_string s = Some a <-> six_tokens loose_pair s a.
Proof.
  unfold from_string. split.
  - destruct (Nat.eqb_spec (length s) 17) as [L|L]; cbn [negb]; [|discriminate].
    intros E.
    destruct (getline_tokens [] s) as [|t5 [|t4 [|t3 [|t2 [|t1 [|t0 [|t6 ts]]]]]]] eqn:Et;
      cbn [parse_loop Nat.leb Nat.eqb] in E;
      repeat match goal with
      | H : context [match parse_token ?t with _ => _ end] |- _ =>
          destruct (parse_token t) eqn:?; [|discriminate]
      end; try discriminate.
    injection E as <-.
    repeat match goal with H : parse_token _ = Some _ |- _ => apply parse_token_spec in H end.
    destruct (getline_inv _ _ _ Et) as [Ej|Ej]; cbn [app] in Ej.
    + exists t0, t1, t2, t3, t4, t5. do 6 eexists. split; [exact Ej|].
      repeat split; eassumption.
    + exfalso. rewrite Ej in L. cbn [join] in L.
      repeat match goal with H : loose_pair _ _ |- _ => apply loose_pair_shape in H as (? & _ & _) end.
      repeat (rewrite app_length in L || cbn [length] in L). lia.
  - intros (t0 & t1 & t2 & t3 & t4 & t5 & b0 & b1 & b2 & b3 & b4 & b5 & -> & -> & H0 & H1 & H2 & H3 & H4 & H5).
    pose proof (loose_pair_shape _ _ H0) as (L0 & N0 & _).
    pose proof (loose_pair_shape _ _ H1) as (L1 & N1 & _).
    pose proof (loose_pair_shape _ _ H2) as (L2 & N2 & _).
    pose proof (loose_pair_shape _ _ H3) as (L3 & N3 & _).
    pose proof (loose_pair_shape _ _ H4) as (L4 & N4 & _).
    pose proof (loose_pair_shape _ _ H5) as (L5 & N5 & _).
    rewrite !app_length. rewrite L0, L1, L2, L3, L4, L5. cbn [length Nat.add Nat.eqb negb].
    rewrite getline_token by assumption. cbn [app]. rewrite getline_colon.
    rewrite getline_token by assumption. cbn [app]. rewrite getline_colon.
    rewrite getline_token by assumption. cbn [app]. rewrite getline_colon.
    rewrite getline_token by assumption. cbn [app]. rewrite getline_colon.
    rewrite getline_token by assumption. cbn [app]. rewrite getline_colon.
    rewrite getline_last; [|destruct t0; [discriminate L0|discriminate]|assumption].
    cbn [parse_loop Nat.leb].
    apply parse_token_spec in H0, H1, H2, H3, H4, H5.
    rewrite H5, H4, H3, H2, H1, H0. reflexivity.
Qed.

(** ---- Printing ---- *)

Lemma hex_char_spec d : d < 16 -> hex_digit (hex_char d) d.
Proof.
  intros H. unfold hex_char. destruct (N.ltb_spec d 10); constructor; lia.
Qed.

Lemma print_byte_spec b : b < 256 -> hex_pair (print_byte b) b.
Proof.
  intros H. unfold print_byte. replace b with (16 * (b / 16) + b mod 16) at 3 by lia.
  constructor; apply hex_char_spec; lia.
Qed.

Lemma six_tokens_mono (P Q : list N -> N -> Prop) s a :
  (forall t b, P t b -> Q t b) -> six_tokens P s a -> six_tokens Q s a.
Proof.
  intros HPQ (t0 & t1 & t2 & t3 & t4 & t5 & b0 & b1 & b2 & b3 & b4 & b5 & Es & Ea & H).
  exists t0, t1, t2, t3, t4, t5, b0, b1, b2, b3, b4, b5. intuition.
Qed.

Lemma wf_address_cases a : wf_address a = true ->
  exists b0 b1 b2 b3 b4 b5, a = [b0; b1; b2; b3; b4; b5] /\
    b0 < 256 /\ b1 < 256 /\ b2 < 256 /\ b3 < 256 /\ b4 < 256 /\ b5 < 256.
Proof.
  unfold wf_address. intros H. apply andb_true_iff in H as [L B].
  apply Nat.eqb_eq in L.
  destruct a as [|b0 [|b1 [|b2 [|b3 [|b4 [|b5 [|]]]]]]]; try discriminate.
  cbn in B. unfold is_byte in B. bsplit.
  exists b0, b1, b2, b3, b4, b5. repeat split; assumption.
Qed.

Lemma to_string_documented a : wf_address a = true -> documented (to_string a) a.
Proof.
  intros W. destruct (wf_address_cases a W) as (b0 & b1 & b2 & b3 & b4 & b5 & -> & H).
  exists (print_byte b0), (print_byte b1), (print_byte b2), (print_byte b3), (print_byte b4), (print_byte b5).
  exists b0, b1, b2, b3, b4, b5. split; [reflexivity|]. split; [reflexivity|].
  repeat split; apply print_byte_spec; lia.
Qed.

Lemma documented_accepted s a : documented s a -> from_string s = Some a.
Proof. intros H. apply from_string_spec. eapply six_tokens_mono; [|exact H]. apply loose_hex. Qed.

Lemma roundtrip a : wf_address a = true -> from_string (to_string a) = Some a.
Proof. intros W. apply documented_accepted, to_string_documented, W. Qed.

Lemma from_string_wf s a : from_string s = Some a -> wf_address a = true.
Proof.
  intros H. apply from_string_spec in H as (t0 & t1 & t2 & t3 & t4 & t5 & b0 & b1 & b2 & b3 & b4 & b5 & _ & -> & H0 & H1 & H2 & H3 & H4 & H5).
  apply loose_pair_shape in H0, H1, H2, H3, H4, H5.
  unfold wf_address. cbn. unfold is_byte. lia.
Qed.

Lemma to_string_inj a b : wf_address a = true -> wf_address b = true ->
  to_string a = to_string b -> a = b.
Proof.
  intros Wa Wb E. apply roundtrip in Wa, Wb. congruence.
Qed.

Definition hex_or_colon (c : N) : Prop := c = 58 \/ exists d, hex_digit c d.

(** On the documented alphabet, parsing accepts exactly the documented form. *)
Lemma alphabet_exact s a : (forall c, In c s -> hex_or_colon c) ->
  (from_string s = Some a <-> documented s a).
Proof.
  intros Hs. split; [|apply documented_accepted].
  intros H. apply from_string_spec in H as (t0 & t1 & t2 & t3 & t4 & t5 & b0 & b1 & b2 & b3 & b4 & b5 & -> & -> & H).
  assert (K : forall t b, (forall c, In c t -> hex_or_colon c) -> loose_pair t b -> hex_pair t b).
  { intros t b Ht Hl. destruct Hl as [t b Hl|c d1 d Hc Hl|d1 d Hl|d1 d Hl]; [exact Hl|exfalso..].
    - destruct (Ht c (or_introl eq_refl)) as [->|[d' Hd]]; [lia|].
      apply hex_digit_range in Hd. apply is_space_spec in Hc. destruct Hd as (_ & _ & Hd & _). congruence.
    - destruct (Ht 43 (or_introl eq_refl)) as [E|[d' Hd]]; [discriminate|].
      apply hex_digit_range in Hd. lia.
    - destruct (Ht 45 (or_introl eq_refl)) as [E|[d' Hd]]; [discriminate|].
      apply hex_digit_range in Hd. lia. }
  exists t0, t1, t2, t3, t4, t5, b0, b1, b2, b3, b4, b5. split; [reflexivity|]. split; [reflexivity|].
  destruct H as (H0 & H1 & H2 & H3 & H4 & H5).
  repeat split; (apply K; [|assumption]); intros c Hc; apply Hs; rewrite !in_app_iff; tauto.
Qed.

Lemma documented_alphabet s a : documented s a -> forall c, In c s -> hex_or_colon c.
Proof.
  intros (t0 & t1 & t2 & t3 & t4 & t5 & b0 & b1 & b2 & b3 & b4 & b5 & -> & _ & H0 & H1 & H2 & H3 & H4 & H5) c Hc.
  assert (K : forall t b, hex_pair t b -> In c t -> hex_or_colon c).
  { intros t b Hp Hi. destruct Hp as [c1 c2 d1 d2 P1 P2].
    destruct Hi as [<-|[<-|[]]]; right; eauto. }
  assert (J : In c [58] -> hex_or_colon c) by (intros [<-|[]]; left; reflexivity).
  rewrite !in_app_iff in Hc. intuition eauto.
Qed.

Lemma loose_witness : exists s a,
  from_string s = Some a /\ ~ (exists a', documented s a').
Proof.
  exists [32;49; 58; 43;49; 58; 45;49; 58; 48;48; 58; 48;48; 58; 48;48], [0; 0; 0; 255; 1; 1].
  split; [vm_compute; reflexivity|].
  intros [a' H]. destruct (documented_alphabet _ _ H 32 (or_introl eq_refl)) as [E|[d Hd]].
  - discriminate.
  - apply hex_digit_range in Hd. destruct Hd as (_ & _ & Hd & _). discriminate.
Qed.

Lemma parse_serialize a rest : wf_address a = true -> parse (serialize a [] ++ rest) = Some (a, rest).
Proof.
  intros W. destruct (wf_address_cases a W) as (b0 & b1 & b2 & b3 & b4 & b5 & -> & _). reflexivity.
Qed.

Lemma overwrite_witness :
  exists s to, fst (from_string_into s to) = false /\ snd (from_string_into s to) <> to.
Proof. exists [], kAny. split; [reflexivity|discriminate]. Qed.
