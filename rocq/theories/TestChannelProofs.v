From Verif Require Import Prelude TestChannel TestChannelSpec.
Open Scope N_scope.
Ltac Zify.zify_post_hook ::= Z.div_mod_to_equations.

Lemma firstn_len {A} (a b : list A) : firstn (N.to_nat (lenN a)) (a ++ b) = a.
Proof. unfold lenN. rewrite Nat2N.id. rewrite firstn_app, firstn_all, Nat.sub_diag. cbn. apply app_nil_r. Qed.
Lemma skipn_len {A} (a b : list A) : skipn (N.to_nat (lenN a)) (a ++ b) = b.
Proof. unfold lenN. rewrite Nat2N.id. rewrite skipn_app, skipn_all, Nat.sub_diag. reflexivity. Qed.

(** ** Test channel (C21) *)

Definition sk q l := {| queue := q; later := l; closed := false |}.

Lemma recv_have a q l : recv (sk (a ++ q) l) (lenN a) = (a, sk (q ++ hd [] l) (tl l)).
Proof. unfold recv, sk. cbn. rewrite <- app_assoc, firstn_len, skipn_len. reflexivity. Qed.
Lemma recv_byte_have b q l : recv_byte (sk (b :: q) l) = (b, sk (q ++ hd [] l) (tl l)).
Proof. unfold recv_byte. change (recv (sk (b :: q) l) 1) with (recv (sk ([b] ++ q) l) (lenN [b])). now rewrite recv_have. Qed.
Lemma recv_vector_have a q l : recv_vector (sk (a ++ q) l) (lenN a) = (a, sk (q ++ hd [] l) (tl l)).
Proof.
  unfold recv_vector. rewrite recv_have. unfold lenN. rewrite Nat2N.id, Nat.sub_diag. cbn. now rewrite app_nil_r.
Qed.
Lemma hd_tl_concat (l : list (list N)) : hd [] l ++ concat (tl l) = concat l.
Proof. destruct l; reflexivity. Qed.

Lemma recv_args_have args : forall q l, exists q' l',
  recv_args (length args) (sk (flat_map wire_string args ++ q) l) = (args, sk q' l') /\
  q' ++ concat l' = q ++ concat l /\ exists e, q' = q ++ e.
Proof.
  induction args as [|a args IH]; intros q l.
  - exists q, l. repeat split. exists []. now rewrite app_nil_r.
  - cbn [length recv_args flat_map]. unfold wire_string at 1. rewrite <- app_assoc. cbn [app].
    rewrite recv_byte_have. rewrite <- !app_assoc. rewrite recv_vector_have. rewrite <- !app_assoc.
    destruct (IH ((q ++ hd [] l) ++ hd [] (tl l)) (tl (tl l))) as (q' & l' & E & C & e & Ee).
    rewrite <- !app_assoc in E. rewrite E. exists q', l'. split; [reflexivity|]. split.
    + rewrite C, <- !app_assoc. now rewrite !hd_tl_concat.
    + exists (hd [] l ++ hd [] (tl l) ++ e). now rewrite Ee, <- !app_assoc.
Qed.

Lemma command_decoded name args q l : good_command name args ->
  exists q' l', on_command_ready (sk (wire_command name args ++ q) l) = (RCommand name args, sk q' l') /\
  q' ++ concat l' = q ++ concat l /\ exists e, q' = q ++ e.
Proof.
  intros (S1 & NE & NC & _ & _). unfold on_command_ready, wire_command, wire_string at 1.
  change (recv (sk (((lenN name :: name) ++ lenN args :: flat_map wire_string args) ++ q) l) 1)
    with (recv (sk ([lenN name] ++ (name ++ lenN args :: flat_map wire_string args) ++ q) l) (lenN [lenN name])).
  rewrite recv_have. cbn [hd]. rewrite <- !app_assoc. rewrite recv_vector_have.
  assert (E : list_eqb name close_command || list_eqb name [] = false).
  { apply orb_false_iff. split; apply not_true_is_false; intros K; apply list_eqb_eq in K; congruence. }
  rewrite E. rewrite <- !app_assoc. cbn [app]. rewrite recv_byte_have.
  unfold lenN at 1. rewrite Nat2N.id. rewrite <- !app_assoc.
  destruct (recv_args_have args (q ++ hd [] l ++ hd [] (tl l) ++ hd [] (tl (tl l))) (tl (tl (tl l)))) as (q' & l' & Er & C & e & Ee).
  rewrite Er. exists q', l'. split; [reflexivity|]. split.
  - rewrite C, <- !app_assoc. now rewrite !hd_tl_concat.
  - exists (hd [] l ++ hd [] (tl l) ++ hd [] (tl (tl l)) ++ e). rewrite Ee. now rewrite <- !app_assoc.
Qed.

Fixpoint serve (n : nat) (s : socket) : list command_result * socket :=
  match n with
  | O => ([], s)
  | S n => let '(r, s1) := on_command_ready s in let '(rs, s2) := serve n s1 in (r :: rs, s2)
  end.

Lemma commands_decoded cmds : forall q l,
  Forall (fun c => good_command (fst c) (snd c)) cmds ->
  exists s', serve (length cmds) (sk (flat_map (fun c => wire_command (fst c) (snd c)) cmds ++ q) l)
    = (map (fun c => RCommand (fst c) (snd c)) cmds, s') /\ unread s' = q ++ concat l.
Proof.
  induction cmds as [|[n a] cmds IH]; intros q l F.
  - eexists. split; [reflexivity|]. reflexivity.
  - inversion F; subst. cbn [length serve flat_map map fst snd].
    rewrite <- app_assoc. destruct (command_decoded n a (flat_map (fun c => wire_command (fst c) (snd c)) cmds ++ q) l)
      as (q' & l' & E & C & e & Ee); [assumption|].
    rewrite E. subst q'. rewrite <- app_assoc. destruct (IH (q ++ e) l') as (s' & Es & U); [assumption|].
    rewrite Es. exists s'. split; [reflexivity|]. rewrite U.
    rewrite <- !app_assoc in C. apply app_inv_head in C. now rewrite <- app_assoc.
Qed.

Lemma split_command : exists name args s, good_command name args /\ closed s = false /\
  unread s = wire_command name args /\ fst (on_command_ready s) <> RCommand name args.
Proof.
  exists [97; 100; 100], [], (sk [3; 97] [[]; []; [100; 100; 0]]).
  split. { unfold good_command, short. cbn. repeat split; try discriminate; try constructor. }
  split; [reflexivity|]. split; [reflexivity|]. vm_compute. discriminate.
Qed.
Lemma empty_name_closes args q l : fst (on_command_ready (sk (wire_command [] args ++ q) l)) = RClosed.
Proof.
  unfold on_command_ready, wire_command, wire_string at 1.
  change (recv (sk (([lenN (@nil N)] ++ lenN args :: flat_map wire_string args) ++ q) l) 1)
    with (recv (sk ([0] ++ (lenN args :: flat_map wire_string args) ++ q) l) (lenN [0])).
  rewrite recv_have. cbn [hd]. unfold recv_vector, recv. cbn. reflexivity.
Qed.

Example good_demo : good_command [97; 100; 100] [[98; 101]; []] /\
  on_command_ready (sk (wire_command [97; 100; 100] [[98; 101]; []] ++ [7]) []) = (RCommand [97; 100; 100] [[98; 101]; []], sk [7] []).
Proof. split; [|reflexivity]. unfold good_command, short. cbn. repeat split; try discriminate.
  constructor; [|constructor; [|constructor]]; discriminate. Qed.

(** ** Responses (C42) *)

Lemma le32_length v : lenN (le32 v) = 4.
Proof. reflexivity. Qed.
Lemma read_le32 v r : v < 4294967296 -> read32 (le32 v ++ r) = v.
Proof. intros H. unfold read32, le32. cbn [app nth]. lia. Qed.
Lemma read_le32' v : v < 4294967296 -> read32 (le32 v) = v.
Proof. intros H. rewrite <- (app_nil_r (le32 v)). now apply read_le32. Qed.

Lemma response_read r rest b : send_response (Written 4) (Written (N.min (lenN r) 65535)) r = RSent b ->
  read_response (b ++ rest) = Some (firstn (N.to_nat 65535) r, rest).
Proof.
  unfold send_response. rewrite N.eqb_refl. intros E0.
  apply (f_equal (fun r => match r with RSent b => b | _ => [] end)) in E0. cbv beta iota in E0. subst b.
  set (n := N.min (lenN r) 65535).
  assert (Hn : n < 4294967296) by lia.
  assert (L : lenN (firstn (N.to_nat n) r) = n) by (unfold lenN in *; rewrite firstn_length; lia).
  unfold read_response. rewrite <- app_assoc.
  destruct (N.ltb_spec (lenN (le32 n ++ firstn (N.to_nat n) r ++ rest)) 4) as [H|_].
  { rewrite !lenN_app, le32_length in H. lia. }
  rewrite read_le32 by exact Hn. change (skipn 4 (le32 n ++ firstn (N.to_nat n) r ++ rest)) with (firstn (N.to_nat n) r ++ rest).
  destruct (N.ltb_spec (lenN (firstn (N.to_nat n) r ++ rest)) n) as [H|_].
  { rewrite lenN_app in H. lia. }
  assert (F : firstn (N.to_nat n) r = firstn (N.to_nat 65535) r).
  { unfold n. destruct (N.le_ge_cases (lenN r) 65535) as [H|H].
    - rewrite N.min_l by lia. rewrite !firstn_all2; [reflexivity| |]; unfold lenN in *; lia.
    - rewrite N.min_r by lia. reflexivity. }
  rewrite <- F. generalize L. generalize (firstn (N.to_nat n) r). intros x Lx. rewrite <- Lx.
  now rewrite firstn_len, skipn_len.
Qed.
Lemma response_complete r rest : lenN r <= 65535 ->
  exists b, send_response (Written 4) (Written (lenN r)) r = RSent b /\ read_response (b ++ rest) = Some (r, rest).
Proof.
  intros H. assert (M : N.min (lenN r) 65535 = lenN r) by lia.
  destruct (send_response (Written 4) (Written (lenN r)) r) as [b| |] eqn:E.
  - exists b. split; [reflexivity|]. rewrite <- M in E. rewrite (response_read r rest b E). do 2 f_equal.
    apply firstn_all2. unfold lenN in H. lia.
  - unfold send_response in E. rewrite M, N.eqb_refl in E. discriminate.
  - unfold send_response in E. rewrite M, N.eqb_refl in E. discriminate.
Qed.
Lemma response_truncated r : 65535 < lenN r ->
  exists b, send_response (Written 4) (Written 65535) r = RSent b /\
  (forall rest, read_response (b ++ rest) = Some (firstn (N.to_nat 65535) r, rest)) /\
  firstn (N.to_nat 65535) r <> r.
Proof.
  intros L. assert (M : N.min (lenN r) 65535 = 65535) by lia.
  assert (E : exists b, send_response (Written 4) (Written 65535) r = RSent b).
  { unfold send_response. rewrite M, N.eqb_refl. eauto. }
  destruct E as [b E]. exists b. split; [exact E|]. split.
  - intros rest. rewrite <- M in E. exact (response_read r rest b E).
  - intros K. apply (f_equal lenN) in K. unfold lenN in *. rewrite firstn_length in K. lia.
Qed.
Lemma response_aborts w1 w2 r : send_response w1 w2 r = RAbort <->
  w1 <> BadFd /\ ~ (w1 = Written 4 /\ w2 = Written (N.min (lenN r) 65535)).
Proof.
  unfold send_response. destruct w1 as [n| |].
  - destruct (N.eq_dec n 4) as [->|Hn].
    + destruct w2 as [m| |].
      * destruct (N.eqb_spec m (N.min (lenN r) 65535)) as [->|Hm].
        -- split; [discriminate|]. intros [_ K]. exfalso. apply K. auto.
        -- split; [|reflexivity]. intros _. split; [discriminate|]. intros [_ K]. congruence.
      * split; [|reflexivity]. intros _. split; [discriminate|]. intros [_ K]. discriminate.
      * split; [|reflexivity]. intros _. split; [discriminate|]. intros [_ K]. discriminate.
    + assert (E : match n with 4 => match w2 with Written m => if m =? N.min (lenN r) 65535 then RSent (le32 (N.min (lenN r) 65535) ++ firstn (N.to_nat (N.min (lenN r) 65535)) r) else RAbort | _ => RAbort end | _ => RAbort end = RAbort).
      { destruct n as [|[|[|[]|]|]]; try reflexivity. congruence. }
      rewrite E. split; [|reflexivity]. intros _. split; [discriminate|]. intros [K _]. congruence.
  - split; [discriminate|]. intros [K _]. congruence.
  - split; [|reflexivity]. intros _. split; [discriminate|]. intros [K _]. discriminate.
Qed.

(** ** Link layer socket (C22) *)

(** Where the receiver is in a stream of packets. *)
Definition At (s : lls) (rest : list N) (ps : list (list N)) : Prop :=
  Forall sendable ps /\ lenN (size_bytes s) = 4 /\
  if receiving_size s then
    offset s < 4 /\ bytes_left s = 4 - offset s /\
    firstn (N.to_nat (offset s)) (size_bytes s) ++ rest = wire_packets ps
  else
    exists p ps', ps = p :: ps' /\ lenN (received s) = lenN p /\ bytes_left s = lenN p - offset s /\
      offset s < lenN p /\
      firstn (N.to_nat (offset s)) (received s) ++ rest = p ++ wire_packets ps'.

Lemma store_some buf o b buf' : store buf o b = Some buf' -> o + lenN b <= lenN buf /\
  lenN buf' = lenN buf /\ firstn (N.to_nat (o + lenN b)) buf' = firstn (N.to_nat o) buf ++ b.
Proof.
  unfold store. destruct (N.leb_spec (o + lenN b) (lenN buf)) as [H|H]; [|discriminate]. intros [= <-].
  assert (L : lenN (firstn (N.to_nat o) buf ++ b) = o + lenN b) by (rewrite lenN_app; unfold lenN in *; rewrite firstn_length; lia).
  split; [exact H|]. split.
  - rewrite app_assoc, lenN_app, L. unfold lenN in *. rewrite skipn_length. lia.
  - rewrite app_assoc. rewrite <- L. apply firstn_len.
Qed.
Lemma store_fits buf o b : o + lenN b <= lenN buf -> exists buf', store buf o b = Some buf'.
Proof. intros H. unfold store. destruct (N.leb_spec (o + lenN b) (lenN buf)); [eauto|lia]. Qed.

Lemma avail_split s k n : avail s k n ++ skipn (length (avail s k n)) s = s /\ lenN (avail s k n) <= n /\ lenN (avail s k n) <= k.
Proof.
  unfold avail. split.
  - rewrite firstn_length. pose proof (firstn_skipn (N.to_nat (N.min k n)) s) as FS.
    destruct (Nat.le_ge_cases (N.to_nat (N.min k n)) (length s)) as [H|H].
    + rewrite Nat.min_l by exact H. exact FS.
    + rewrite Nat.min_r by exact H. rewrite skipn_all. rewrite firstn_all2 by lia. apply app_nil_r.
  - unfold lenN. rewrite firstn_length. lia.
Qed.

Lemma app_split_len (a b c d : list N) : a ++ b = c ++ d -> lenN a <= lenN c ->
  exists e, c = a ++ e /\ b = e ++ d.
Proof.
  revert c. induction a as [|x a IH]; intros c E H.
  - exists c. split; [reflexivity|exact E].
  - destruct c as [|y c]; [rewrite lenN_cons, lenN_nil in H; lia|]. injection E as -> E.
    rewrite !lenN_cons in H. destruct (IH c E) as (e & -> & ->); [lia|]. now exists e.
Qed.

Lemma payload_step s rest k p ps' : receiving_size s = false -> At s rest (p :: ps') ->
  match tick_payload s rest k with
  | TOk s1 rest1 None => At s1 rest1 (p :: ps') /\ (0 < k -> (length rest1 < length rest)%nat)
  | TOk s1 rest1 (Some q) => q = p /\ At s1 rest1 ps' /\ (length rest1 < length rest)%nat
  | TClosed => False
  | TUndefined => False
  end.
Proof.
  intros RS (F & SB & A). rewrite RS in A. destruct A as (p0 & ps0 & E & L & BL & O & W). injection E as <- <-.
  unfold tick_payload. destruct (avail_split rest k (bytes_left s)) as (AS & AL & AK).
  destruct (avail rest k (bytes_left s)) as [|x b] eqn:Eb.
  - destruct (N.eqb_spec (bytes_left s) 0) as [Z|Z]; [lia|]. split.
    + split; [exact F|]. split; [exact SB|]. rewrite RS. exists p, ps'. auto.
    + intros Hk. exfalso. unfold avail in Eb.
      assert (0 < length rest)%nat.
      { assert (K : lenN (firstn (N.to_nat (offset s)) (received s) ++ rest) = lenN (p ++ wire_packets ps')) by now rewrite W.
        rewrite !lenN_app in K. unfold lenN in K at 1. rewrite firstn_length in K. unfold lenN in *. lia. }
      apply (f_equal (@length N)) in Eb. rewrite firstn_length in Eb. cbn in Eb. lia.
  - destruct (store_fits (received s) (offset s) (x :: b)) as [r Er]; [lia|]. rewrite Er.
    apply store_some in Er as (S1 & S2 & S3).
    assert (Lr : (length (skipn (length (x :: b)) rest) < length rest)%nat).
    { rewrite <- AS at 2. rewrite app_length. cbn [length]. lia. }
    destruct (N.ltb_spec (lenN (x :: b)) (bytes_left s)) as [Hs|Hs].
    + split; [|intros _; exact Lr]. split; [exact F|]. split; [exact SB|]. cbn [receiving_size received offset bytes_left].
      exists p, ps'. split; [reflexivity|]. split; [lia|]. split; [lia|]. split; [lia|].
      rewrite S3, <- app_assoc, AS. exact W.
    + assert (EL : offset s + lenN (x :: b) = lenN p) by lia.
      assert (Er : r = firstn (N.to_nat (offset s)) (received s) ++ x :: b).
      { rewrite <- S3. symmetry. apply firstn_all2. unfold lenN in *. lia. }
      assert (W2 : r ++ skipn (length (x :: b)) rest = p ++ wire_packets ps').
      { rewrite Er, <- app_assoc, AS. exact W. }
      destruct (app_split_len _ _ _ _ W2) as (e & E1 & E2); [lia|].
      assert (e = []).
      { apply (f_equal lenN) in E1. rewrite lenN_app in E1. destruct e as [|y e]; [reflexivity|]. pose proof (lenN_cons y e). lia. }
      subst e. rewrite app_nil_r in E1. cbn in E2. split; [congruence|]. split; [|exact Lr].
      split; [now inversion F|]. split; [exact SB|]. cbn [receiving_size offset bytes_left size_bytes].
      split; [lia|]. split; [reflexivity|]. cbn. exact E2.
Qed.

(** A tick that does not overflow the header buffer. *)
Lemma tick_step s rest k1 k2 ps : At s rest ps -> tick s rest k1 k2 <> TUndefined ->
  exists s1 rest1 out, tick s rest k1 k2 = TOk s1 rest1 out /\
  exists ps1, ps = (match out with Some p => [p] | None => [] end) ++ ps1 /\ At s1 rest1 ps1 /\
  (rest <> [] -> 0 < k1 -> 0 < k2 -> (length rest1 < length rest)%nat).
Proof.
  intros A U. unfold tick in *. destruct (receiving_size s) eqn:RS.
  - pose proof A as (F & SB & A'). rewrite RS in A'. destruct A' as (O & BL & W).
    destruct (avail_split rest k1 4) as (AS & AL & AK). destruct (avail rest k1 4) as [|x b] eqn:Eb.
    + exists s, rest, None. split; [reflexivity|]. exists ps. split; [reflexivity|]. split; [exact A|].
      intros NE Hk _. exfalso. unfold avail in Eb. destruct rest as [|y rest]; [congruence|].
      assert (Hm : (0 < N.to_nat (N.min k1 4))%nat) by lia. destruct (N.to_nat (N.min k1 4)); [lia|discriminate].
    + destruct (store (size_bytes s) (offset s) (x :: b)) as [sb|] eqn:Es; [|congruence].
      apply store_some in Es as (S1 & S2 & S3).
      assert (Lr : (length (skipn (length (x :: b)) rest) < length rest)%nat).
      { rewrite <- AS at 2. rewrite app_length. cbn [length]. lia. }
      destruct (N.ltb_spec (lenN (x :: b)) (bytes_left s)) as [Hs|Hs].
      * eexists _, _, None. split; [reflexivity|]. exists ps. split; [reflexivity|]. split; [|intros; exact Lr].
        split; [exact F|]. split; [cbn; lia|]. cbn [receiving_size offset bytes_left size_bytes].
        split; [lia|]. split; [lia|]. rewrite S3, <- app_assoc, AS. exact W.
      * assert (Eo : offset s + lenN (x :: b) = 4) by lia. rewrite Eo in S3.
        assert (Esb : sb = firstn (N.to_nat (offset s)) (size_bytes s) ++ x :: b).
        { rewrite <- S3. symmetry. apply firstn_all2. unfold lenN in *. lia. }
        assert (W2 : sb ++ skipn (length (x :: b)) rest = wire_packets ps).
        { rewrite Esb, <- app_assoc, AS. exact W. }
        destruct ps as [|p ps'].
        { exfalso. apply (f_equal lenN) in W2. change (wire_packets []) with (@nil N) in W2. rewrite lenN_app, lenN_nil, S2, SB in W2. lia. }
        cbn [wire_packets flat_map] in W2. rewrite <- app_assoc in W2.
        assert (SP : sendable p) by now inversion F.
        destruct (app_split_len _ _ _ _ W2) as (e & E1 & E2); [rewrite le32_length; lia|].
        assert (e = []).
        { apply (f_equal lenN) in E1. rewrite lenN_app, le32_length in E1. destruct e as [|y e]; [reflexivity|]. pose proof (lenN_cons y e). lia. }
        subst e. rewrite app_nil_r in E1. cbn in E2. rewrite <- E1. rewrite read_le32' by apply SP.
        set (s1 := {| receiving_size := false; bytes_left := lenN p; offset := 0; size_bytes := le32 (lenN p);
                      received := repeat 0 (N.to_nat (lenN p)) |}).
        assert (A1 : At s1 (skipn (length (x :: b)) rest) (p :: ps')).
        { split; [exact F|]. split; [reflexivity|]. cbn [receiving_size s1]. exists p, ps'.
          split; [reflexivity|]. cbn [received bytes_left offset s1]. split; [unfold lenN; rewrite repeat_length; lia|].
          split; [lia|]. split; [|rewrite <- ?E1 in E2; exact E2]. destruct SP as [NE _]. destruct p; [congruence|]. rewrite lenN_cons. lia. }
        pose proof (payload_step s1 _ k2 p ps' eq_refl A1) as P.
        destruct (tick_payload s1 (skipn (length (x :: b)) rest) k2) as [s2 r2 [q|]| |]; try contradiction.
        -- destruct P as (-> & A2 & P). eexists _, _, _. split; [reflexivity|]. exists ps'. split; [reflexivity|].
           split; [exact A2|]. intros _ _ _. lia.
        -- destruct P as (A2 & P). eexists _, _, _. split; [reflexivity|]. exists (p :: ps'). split; [reflexivity|].
           split; [exact A2|]. intros _ _ K. specialize (P K). lia.
  - pose proof A as (F & SB & A'). rewrite RS in A'. destruct A' as (p & ps' & -> & _).
    pose proof (payload_step s rest k2 p ps' RS A) as P.
    destruct (tick_payload s rest k2) as [s2 r2 [q|]| |]; try contradiction.
    + destruct P as (-> & A2 & P). eexists _, _, _. split; [reflexivity|]. exists ps'. split; [reflexivity|].
      split; [exact A2|]. intros _ _ _. exact P.
    + destruct P as (A2 & P). eexists _, _, _. split; [reflexivity|]. exists (p :: ps'). split; [reflexivity|].
      split; [exact A2|]. intros _ _ K. exact (P K).
Qed.

Lemma at_done s ps : At s [] ps -> ps = [] .
Proof.
  intros (F & SB & A). destruct (receiving_size s).
  - destruct A as (O & BL & W). destruct ps as [|p ps]; [reflexivity|]. exfalso.
    apply (f_equal lenN) in W. cbn [wire_packets flat_map] in W. rewrite !lenN_app, le32_length, lenN_nil in W.
    unfold lenN in W at 1. rewrite firstn_length in W. lia.
  - destruct A as (p & ps' & -> & L & BL & O & W). exfalso. apply (f_equal lenN) in W. rewrite !lenN_app, lenN_nil in W.
    unfold lenN in W at 1. rewrite firstn_length in W. lia.
Qed.

Lemma ticks_spec ks : forall s rest ps out s' rest', At s rest ps -> ticks s rest ks = Some (out, s', rest') ->
  exists ps', ps = out ++ ps' /\ At s' rest' ps'.
Proof.
  induction ks as [|[k1 k2] ks IH]; intros s rest ps out s' rest' A; cbn [ticks].
  - intros [= <- <- <-]. exists ps. auto.
  - intros H. destruct (tick s rest k1 k2) as [s1 r1 o| |] eqn:T; try discriminate.
    destruct (tick_step s rest k1 k2 ps A) as (s2 & r2 & o2 & E & ps1 & -> & A1 & _); [rewrite T; discriminate|].
    rewrite T in E. injection E as <- <- <-. destruct (ticks s1 r1 ks) as [[[out1 s3] r3]|] eqn:TS; [|discriminate].
    injection H as <- <- <-. destruct (IH _ _ _ _ _ _ A1 TS) as (ps' & -> & A3). exists ps'. split; [|exact A3].
    destruct o; reflexivity.
Qed.

Lemma at_init ps : Forall sendable ps -> At lls_init (wire_packets ps) ps.
Proof. intros F. split; [exact F|]. split; [reflexivity|]. cbn. repeat split; lia. Qed.

Lemma socket_lossless ps ks out s' rest' : Forall sendable ps ->
  ticks lls_init (wire_packets ps) ks = Some (out, s', rest') ->
  (exists ps', ps = out ++ ps') /\ (rest' = [] -> out = ps).
Proof.
  intros F T. destruct (ticks_spec ks _ _ _ _ _ _ (at_init ps F) T) as (ps' & -> & A). split; [eauto|].
  intros ->. apply at_done in A. subst. now rewrite app_nil_r.
Qed.

Lemma whole_step s rest k1 k2 ps : At s rest ps -> (receiving_size s = true -> offset s = 0) -> whole_header (k1, k2) ->
  tick s rest k1 k2 <> TUndefined /\
  forall s1 rest1 out, tick s rest k1 k2 = TOk s1 rest1 out -> receiving_size s1 = true -> offset s1 = 0.
Proof.
  intros A O0 H. assert (P : forall s r k, receiving_size s = false -> forall s1 r1 o, tick_payload s r k = TOk s1 r1 o ->
    receiving_size s1 = true -> offset s1 = 0).
  { clear. intros s r k RS s1 r1 o. unfold tick_payload. destruct (avail r k (bytes_left s)) as [|x b].
    - destruct (bytes_left s =? 0); [discriminate|]. intros [= <- <- <-]. congruence.
    - destruct (store (received s) (offset s) (x :: b)); [|discriminate].
      destruct (lenN (x :: b) <? bytes_left s); intros [= <- <- <-]; [discriminate|reflexivity]. }
  destruct (receiving_size s) eqn:RS.
  2:{ pose proof A as (F & SB & A'). rewrite RS in A'. destruct A' as (p & ps' & -> & _).
      pose proof (payload_step s rest k2 p ps' RS A) as Q. unfold tick. rewrite RS. split.
      - intros E. now rewrite E in Q.
      - apply P, RS. }
  specialize (O0 eq_refl). pose proof A as (F & SB & A'). rewrite RS in A'. destruct A' as (O & BL & W).
  destruct (avail_split rest k1 4) as (AS & AL & AK). unfold tick. rewrite RS.
  destruct (avail rest k1 4) as [|x b] eqn:Eb.
  - split; [discriminate|]. intros s1 rest1 out [= <- <- <-]. auto.
  - destruct (store_fits (size_bytes s) (offset s) (x :: b)) as [sb Es]; [lia|]. rewrite Es.
    destruct H as [H|H]; cbn in H; [rewrite lenN_cons in AK; lia|].
    assert (L4 : lenN (x :: b) = 4).
    { (* the header is entirely in the stream *)
      rewrite O0 in W. cbn [N.to_nat firstn app] in W. destruct ps as [|p ps']; [change (wire_packets []) with (@nil N) in W; subst rest; unfold avail in Eb; rewrite firstn_nil in Eb; discriminate Eb|].
      rewrite <- Eb, W. unfold avail, lenN. rewrite firstn_length. cbn [wire_packets flat_map]. rewrite !app_length.
      cbn [le32 length]. lia. }
    destruct (N.ltb_spec (lenN (x :: b)) (bytes_left s)) as [Hs|Hs]; [lia|].
    pose proof (tick_step s rest k1 k2 ps A) as T.
    assert (Q : tick s rest k1 k2 <> TUndefined).
    { unfold tick. rewrite RS, Eb, Es. destruct (N.ltb_spec (lenN (x :: b)) (bytes_left s)) as [|]; [lia|].
      destruct ps as [|p ps']; [rewrite O0 in W; cbn [N.to_nat firstn app] in W; change (wire_packets []) with (@nil N) in W; subst rest; unfold avail in Eb; rewrite firstn_nil in Eb; discriminate Eb|].
      rewrite O0 in W. cbn [N.to_nat firstn app] in W.
      apply store_some in Es as (S1 & S2 & S3). rewrite O0 in S3. cbn [N.add] in S3. rewrite N.add_0_l in S3. cbn [firstn N.to_nat app] in S3.
      assert (Esb : sb = x :: b). { rewrite <- S3. symmetry. apply firstn_all2. unfold lenN in *. lia. }
      cbn [wire_packets flat_map] in W. rewrite <- app_assoc in W.
      assert (SP : sendable p) by now inversion F.
      assert (W2 : (x :: b) ++ skipn (length (x :: b)) rest = le32 (lenN p) ++ p ++ wire_packets ps') by (rewrite AS; exact W).
      destruct (app_split_len _ _ _ _ W2) as (e & E1 & E2); [rewrite le32_length; lia|].
      assert (e = []).
      { apply (f_equal lenN) in E1. rewrite lenN_app, le32_length in E1. destruct e as [|y e]; [reflexivity|]. pose proof (lenN_cons y e). lia. }
      subst e. rewrite app_nil_r in E1. cbn [app] in E2. rewrite Esb, <- E1. rewrite read_le32' by apply SP.
      match goal with |- tick_payload ?s1 ?r k2 <> _ => pose proof (payload_step s1 r k2 p ps' eq_refl) as PS end.
      intros K. rewrite K in PS. cbv iota in PS. apply PS. split; [exact F|]. split; [reflexivity|]. cbn [receiving_size]. exists p, ps'.
      split; [reflexivity|]. cbn [received bytes_left offset]. split; [unfold lenN; rewrite repeat_length; lia|].
      split; [lia|]. split; [|rewrite <- ?E1 in E2; exact E2]. destruct SP as [NE _]. destruct p; [congruence|]. rewrite lenN_cons. lia. }
    unfold tick in Q. rewrite RS, Eb, Es in Q. destruct (N.ltb_spec (lenN (x :: b)) (bytes_left s)) as [|]; [lia|].
    split; [exact Q|]. apply P. reflexivity.
Qed.

Lemma whole_ticks ks : forall s rest ps, At s rest ps -> (receiving_size s = true -> offset s = 0) ->
  Forall whole_header ks ->
  exists out s' rest', ticks s rest ks = Some (out, s', rest') /\
    (Forall (fun k => 0 < fst k /\ 0 < snd k) ks -> (length rest <= length ks)%nat -> rest' = []).
Proof.
  induction ks as [|[k1 k2] ks IH]; intros s rest ps A O H.
  - exists [], s, rest. split; [reflexivity|]. intros _ L. destruct rest; [reflexivity|cbn in L; lia].
  - inversion H as [|? ? H1 H2]; subst. destruct (whole_step s rest k1 k2 ps A O H1) as (U & Z).
    destruct (tick_step s rest k1 k2 ps A U) as (s1 & r1 & o & E & ps1 & _ & A1 & Pr).
    destruct (IH s1 r1 ps1 A1 (Z _ _ _ E) H2) as (out & s' & rest' & T & D).
    cbn [ticks]. rewrite E, T. eexists _, _, _. split; [reflexivity|]. intros Fk L. inversion Fk as [|? ? [K1 K2] Fk']; subst.
    apply D; [exact Fk'|]. cbn in K1, K2, L. destruct rest as [|y rest].
    + assert (r1 = []).
      { unfold tick in E. destruct A as (F & SB & A). destruct (receiving_size s) eqn:RS.
        - unfold avail in E. rewrite firstn_nil in E. congruence.
        - unfold tick_payload, avail in E. rewrite firstn_nil in E. destruct (bytes_left s =? 0); congruence. }
      subst. cbn. lia.
    + specialize (Pr ltac:(discriminate) K1 K2). cbn in *. lia.
Qed.

Lemma socket_whole_headers ps ks : Forall sendable ps -> Forall whole_header ks ->
  exists out s' rest', ticks lls_init (wire_packets ps) ks = Some (out, s', rest') /\
    (exists ps', ps = out ++ ps') /\
    (Forall (fun k => 0 < fst k /\ 0 < snd k) ks -> (length (wire_packets ps) <= length ks)%nat -> out = ps).
Proof.
  intros F H. destruct (whole_ticks ks _ _ _ (at_init ps F) (fun _ => eq_refl) H) as (out & s' & rest' & T & D).
  exists out, s', rest'. split; [exact T|]. destruct (socket_lossless _ _ _ _ _ F T) as [P1 P2]. split; [exact P1|].
  intros Fk L. apply P2, D; assumption.
Qed.

(** A header in two pieces: the second read asks for 4 bytes again and writes
    past the end of the header buffer. *)
Lemma socket_overflow : exists p k1 k2 s1 rest1, sendable p /\ tick lls_init (wire_packets [p]) 1 1 = TOk s1 rest1 None /\
  tick s1 rest1 k1 k2 = TUndefined.
Proof.
  exists [7; 7; 7], 100, 100. eexists _, _. split; [split; [discriminate|reflexivity]|].
  split; [reflexivity|]. reflexivity.
Qed.
(** Undefined behaviour exactly when a continued header read gets more bytes
    than the header still needs. *)
Lemma socket_overflow_exact s rest k1 k2 ps : At s rest ps ->
  (tick s rest k1 k2 = TUndefined <->
   receiving_size s = true /\ bytes_left s < lenN (avail rest k1 4)).
Proof.
  intros A. unfold tick. pose proof A as (F & SB & A'). destruct (receiving_size s) eqn:RS.
  - destruct A' as (O & BL & W). destruct (avail rest k1 4) as [|x b] eqn:Eb.
    + rewrite lenN_nil. split; [discriminate|lia].
    + destruct (store (size_bytes s) (offset s) (x :: b)) as [sb|] eqn:ST.
      * apply store_some in ST as (S1 & S2 & S3). split; [|intros [_ K]; lia]. intros K. exfalso.
        destruct (N.ltb_spec (lenN (x :: b)) (bytes_left s)) as [Hs|Hs]; [discriminate|].
        destruct (avail_split rest k1 4) as (AS & AL & AK). rewrite Eb in AS, AL, AK.
        assert (Eo : offset s + lenN (x :: b) = 4) by lia. rewrite Eo in S3.
        assert (Esb : sb = firstn (N.to_nat (offset s)) (size_bytes s) ++ x :: b).
        { rewrite <- S3. symmetry. apply firstn_all2. unfold lenN in *. lia. }
        assert (W2 : sb ++ skipn (length (x :: b)) rest = wire_packets ps) by (rewrite Esb, <- app_assoc, AS; exact W).
        destruct ps as [|p ps'].
        { apply (f_equal lenN) in W2. change (wire_packets []) with (@nil N) in W2. rewrite lenN_app, lenN_nil, S2, SB in W2. lia. }
        cbn [wire_packets flat_map] in W2. rewrite <- app_assoc in W2.
        assert (SP : sendable p) by now inversion F.
        destruct (app_split_len _ _ _ _ W2) as (e & E1 & E2); [rewrite le32_length; lia|].
        assert (e = []).
        { apply (f_equal lenN) in E1. rewrite lenN_app, le32_length in E1. destruct e as [|y e]; [reflexivity|]. pose proof (lenN_cons y e). lia. }
        subst e. rewrite app_nil_r in E1. cbn [app] in E2. rewrite <- E1 in K. rewrite read_le32' in K by apply SP.
        match type of K with tick_payload ?s1 ?r k2 = _ => pose proof (payload_step s1 r k2 p ps' eq_refl) as PS end.
        rewrite K in PS. cbv iota in PS. apply PS. split; [exact F|]. split; [reflexivity|]. cbn [receiving_size]. exists p, ps'.
        split; [reflexivity|]. cbn [received bytes_left offset]. split; [unfold lenN; rewrite repeat_length; lia|].
        split; [lia|]. split; [|rewrite <- ?E1 in E2; exact E2]. destruct SP as [NE _]. destruct p; [congruence|]. rewrite lenN_cons. lia.
      * split; [|reflexivity]. intros _. split; [reflexivity|]. unfold store in ST.
        destruct (N.leb_spec (offset s + lenN (x :: b)) (lenN (size_bytes s))); [discriminate|lia].
  - destruct A' as (p & ps' & -> & _). pose proof (payload_step s rest k2 p ps' RS A) as P.
    split; [|intros [? _]; discriminate]. intros K. now rewrite K in P.
Qed.
Lemma socket_failure_exact ps ks out s rest k1 k2 : Forall sendable ps ->
  ticks lls_init (wire_packets ps) ks = Some (out, s, rest) ->
  tick s rest k1 k2 <> TClosed /\
  (tick s rest k1 k2 = TUndefined <-> receiving_size s = true /\ bytes_left s < lenN (avail rest k1 4)).
Proof.
  intros F T. destruct (ticks_spec ks _ _ _ _ _ _ (at_init ps F) T) as (ps' & _ & A).
  split; [|exact (socket_overflow_exact s rest k1 k2 ps' A)]. intros K.
  destruct (tick_step s rest k1 k2 ps' A) as (s1 & r1 & o & E & _); congruence.
Qed.
Lemma socket_empty_packet : tick lls_init (wire_packets [[]]) 4 4 = TClosed.
Proof. reflexivity. Qed.

Example socket_demo : ticks lls_init (wire_packets [[1; 2; 3]; [4]]) [(4, 1); (9, 9); (0, 5); (4, 0); (8, 1)] =
  Some ([[1; 2; 3]; [4]], {| receiving_size := true; bytes_left := 4; offset := 0; size_bytes := [1; 0; 0; 0]; received := [4] |}, []).
Proof. reflexivity. Qed.
