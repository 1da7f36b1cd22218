From Verif Require Import Prelude Address Rpa.
Open Scope N_scope.
Ltac Zify.zify_post_hook ::= Z.div_mod_to_equations.

Lemma land63_lt x : x < 256 -> N.land x 63 < 64.
Proof. intros H. change 63 with (N.ones 6). rewrite N.land_ones. apply N.mod_lt. discriminate. Qed.

Lemma forall_byte (P : N -> bool) :
  forallb (fun n => P (N.of_nat n)) (seq 0 256) = true -> forall x, x < 256 -> P x = true.
Proof.
  intros H x Hx. rewrite forallb_forall in H.
  replace x with (N.of_nat (N.to_nat x)) by lia. apply H. apply in_seq. lia.
Qed.

Lemma lor64_top : forall x, x < 256 -> (N.land (N.lor (N.land x 63) 64) 192 =? 64) = true.
Proof. apply (forall_byte (fun x => N.land (N.lor (N.land x 63) 64) 192 =? 64)). vm_compute. reflexivity. Qed.

Lemma lor64_low : forall x, x < 256 -> (N.land (N.lor (N.land x 63) 64) 63 =? N.land x 63) = true.
Proof. apply (forall_byte (fun x => N.land (N.lor (N.land x 63) 64) 63 =? N.land x 63)). vm_compute. reflexivity. Qed.

Lemma lor64_byte : forall x, x < 256 -> (N.lor (N.land x 63) 64 <? 256) = true.
Proof. apply (forall_byte (fun x => N.lor (N.land x 63) 64 <? 256)). vm_compute. reflexivity. Qed.

Section WithCipher.
Variable aes : list N -> list N -> list N.
Hypothesis aes_len : forall k m, length (aes k m) = 16%nat.
Hypothesis aes_bytes : forall k m, forallb is_byte (aes k m) = true.

Lemma first3 k m : exists a b c l, aes k m = a :: b :: c :: l /\ a < 256 /\ b < 256 /\ c < 256.
Proof.
  pose proof (aes_len k m) as L. pose proof (aes_bytes k m) as B.
  destruct (aes k m) as [|a [|b [|c l]]]; try discriminate.
  exists a, b, c, l. cbn [forallb] in B. unfold is_byte in B. bsplit. auto.
Qed.

Lemma generated_matches irk r0 r1 r2 r3 :
  is_rpa (AWT (generate_rpa aes irk r0 r1 r2 r3) RANDOM_DEVICE) = true /\
  matches_irk aes (AWT (generate_rpa aes irk r0 r1 r2 r3) RANDOM_DEVICE) irk = true.
Proof.
  unfold generate_rpa, aes_128.
  set (prand := rpa_prand r0 r1 r2 r3).
  destruct (first3 irk (prand ++ repeat 0 (16 - length prand))) as (a & b & c & l & E & _).
  rewrite E. cbn [firstn app].
  assert (HR : is_rpa (AWT (a :: b :: c :: prand) RANDOM_DEVICE) = true).
  { unfold is_rpa. cbn [awt_type awt_addr address_type_eqb andb]. unfold prand, rpa_prand. cbn [nth].
    apply lor64_top. apply N.mod_lt. discriminate. }
  split; [exact HR|].
  unfold matches_irk. rewrite HR. cbn [negb awt_addr].
  replace [nth 3 (a :: b :: c :: prand) 0; nth 4 (a :: b :: c :: prand) 0; nth 5 (a :: b :: c :: prand) 0]
    with prand by reflexivity.
  unfold aes_128. rewrite E. cbn [firstn nth]. apply list_eqb_refl.
Qed.

Lemma generated_wf irk r0 r1 r2 r3 : wf_address (generate_rpa aes irk r0 r1 r2 r3) = true.
Proof.
  unfold generate_rpa, aes_128.
  set (prand := rpa_prand r0 r1 r2 r3).
  destruct (first3 irk (prand ++ repeat 0 (16 - length prand))) as (a & b & c & l & E & Ha & Hb & Hc).
  rewrite E. unfold prand, rpa_prand, wf_address.
  assert (Hm : r2 mod 256 < 256) by (apply N.mod_lt; discriminate).
  assert (H2 := lor64_byte _ Hm).
  cbn [firstn app length Nat.eqb forallb andb]. unfold is_byte. rewrite H2.
  destruct (_ || _); lia.
Qed.

(** The 22 random bits are neither all zero nor all one. *)
Lemma prand_random r0 r1 r2 r3 :
  let p := rpa_prand r0 r1 r2 r3 in
  let v := nth 0 p 0 + 256 * nth 1 p 0 + 65536 * N.land (nth 2 p 0) 63 in
  v <> 0 /\ v <> 4194303.
Proof.
  cbn zeta. unfold rpa_prand. cbn [nth].
  assert (Hm : r2 mod 256 < 256) by (apply N.mod_lt; discriminate).
  assert (E := lor64_low _ Hm). apply N.eqb_eq in E. rewrite E.
  pose proof (land63_lt _ Hm) as L.
  set (p2 := N.land (r2 mod 256) 63) in *.
  destruct ((_ && _) || _) eqn:Ec; lia.
Qed.

Lemma not_rpa_never_matches a irk : is_rpa a = false -> matches_irk aes a irk = false.
Proof. intros H. unfold matches_irk. now rewrite H. Qed.

Lemma matches_is_rpa a irk : matches_irk aes a irk = true -> is_rpa a = true.
Proof. unfold matches_irk. destruct (is_rpa a); [reflexivity|discriminate]. Qed.

(** A match says exactly that the hash is the cipher of the random part. *)
Lemma matches_exact h0 h1 h2 p0 p1 p2 irk t :
  matches_irk aes (AWT [h0; h1; h2; p0; p1; p2] t) irk = true <->
  t = RANDOM_DEVICE /\ N.land p2 192 = 64 /\
  firstn 3 (aes irk ([p0; p1; p2] ++ repeat 0 13)) = [h0; h1; h2].
Proof.
  unfold matches_irk, is_rpa. cbn [awt_type awt_addr nth].
  change (16 - length [p0; p1; p2])%nat with 13%nat.
  unfold aes_128. cbn [length Nat.sub].
  split.
  - destruct t; cbn [address_type_eqb andb negb]; try discriminate.
    destruct (N.eqb_spec (N.land p2 192) 64) as [E|E]; cbn [negb]; [|discriminate].
    intros H. apply list_eqb_eq in H. auto.
  - intros (-> & E & H). cbn [address_type_eqb andb]. rewrite E. cbn [negb].
    change (64 =? 64) with true. cbn [negb]. apply list_eqb_eq. exact H.
Qed.

(** Resolution through the list: the identity of the first entry whose key
    matches. *)
Lemma resolve_loop_spec a l :
  snd (resolve_loop aes a l) =
  option_map (fun e => peer_device_address (peer_identity_address e) (peer_identity_type e))
    (find (fun e => matches_irk aes a (peer_irk e)) l).
Proof.
  induction l as [|e l IH]; [reflexivity|]. cbn [resolve_loop find].
  destruct (matches_irk aes a (peer_irk e)); [reflexivity|].
  destruct (resolve_loop aes a l) as [l'' r]. cbn in *. exact IH.
Qed.

Lemma find_app_none {A} (f : A -> bool) l1 e l2 :
  (forall x, In x l1 -> f x = false) -> f e = true -> find f (l1 ++ e :: l2) = Some e.
Proof.
  induction l1 as [|x l1 IH]; intros Hn He; cbn.
  - now rewrite He.
  - rewrite Hn by (left; reflexivity). apply IH; [|exact He]. intros y Hy; apply Hn; right; exact Hy.
Qed.

(** End to end: the advertiser generates an address with its local key for the
    peer; the peer, whose list holds that key, resolves it. *)
Lemma end_to_end l1 e l2 a_entries a ra r0 r1 r2 r3 l_a' :
  generate_for aes a_entries a true r0 r1 r2 r3 = (l_a', Some ra) ->
  exists irk, (exists ea, In ea a_entries /\ irk = local_irk ea /\
                 peer_identity_address ea = awt_addr a /\
                 peer_identity_type ea = to_peer_type (awt_type a)) /\
    (peer_irk e = irk ->
     (forall x, In x l1 -> matches_irk aes ra (peer_irk x) = false) ->
     snd (resolve_private_address aes true (l1 ++ e :: l2) ra)
     = Some (peer_device_address (peer_identity_address e) (peer_identity_type e))).
Proof.
  revert l_a'. induction a_entries as [|ea l IH]; intros l_a' E; cbn [generate_for] in E; [discriminate|].
  destruct (list_eqb (awt_addr a) (peer_identity_address ea)
            && peer_type_eqb (to_peer_type (awt_type a)) (peer_identity_type ea)) eqn:Em.
  - injection E as _ <-. exists (local_irk ea). split.
    + exists ea. apply andb_true_iff in Em as [E1 E2]. apply list_eqb_eq in E1.
      repeat split; auto; [left; reflexivity|].
      destruct (to_peer_type (awt_type a)), (peer_identity_type ea); auto; discriminate.
    + intros Hk Hn. destruct (generated_matches (local_irk ea) r0 r1 r2 r3) as [H1 H2].
      unfold resolve_private_address. rewrite H1. cbn [negb].
      rewrite resolve_loop_spec, (find_app_none _ l1 e l2); [reflexivity|exact Hn|].
      rewrite Hk. exact H2.
  - destruct (generate_for aes l a true r0 r1 r2 r3) as [l'' r] eqn:E2.
    injection E as _ ->.
    destruct (IH _ eq_refl) as (irk & (x & Hx & H) & H3).
    exists irk. split; [|exact H3]. exists x. split; [right; exact Hx|exact H].
Qed.

(** What resolution changes: only the recorded peer address of the entry that
    matched. *)
Definition same_identity (e e' : resolving_entry) : Prop :=
  peer_identity_type e = peer_identity_type e' /\ peer_identity_address e = peer_identity_address e' /\
  peer_irk e = peer_irk e' /\ local_irk e = local_irk e'.

Lemma resolve_preserves enabled l a :
  Forall2 same_identity l (fst (resolve_private_address aes enabled l a)).
Proof.
  assert (R : forall l, Forall2 same_identity l l)
    by (induction l0; constructor; unfold same_identity; auto).
  unfold resolve_private_address. destruct (negb (is_rpa a)); [apply R|].
  destruct (negb enabled); [apply R|].
  induction l as [|e l IH]; [constructor|]. cbn [resolve_loop].
  destruct (matches_irk aes a (peer_irk e)).
  - constructor; [unfold same_identity; auto|apply R].
  - destruct (resolve_loop aes a l) as [l'' r]. constructor; [unfold same_identity; auto|exact IH].
Qed.

Lemma not_rpa_unchanged enabled l a : is_rpa a = false ->
  resolve_private_address aes enabled l a = (l, Some a).
Proof. intros H. unfold resolve_private_address. now rewrite H. Qed.

Lemma disabled_never_resolves l a : is_rpa a = true ->
  resolve_private_address aes false l a = (l, None).
Proof. intros H. unfold resolve_private_address. now rewrite H. Qed.

(** A resolvable address resolves exactly when some key of the list matches. *)
Lemma resolves_iff l a : is_rpa a = true ->
  ((exists i, snd (resolve_private_address aes true l a) = Some i) <->
   exists e, In e l /\ matches_irk aes a (peer_irk e) = true).
Proof.
  intros H. unfold resolve_private_address. rewrite H. cbn [negb]. rewrite resolve_loop_spec.
  split.
  - intros [i E]. destruct (find _ l) as [e|] eqn:Ef; [|discriminate].
    apply find_some in Ef. eauto.
  - intros (e & Hi & Hm). destruct (find (fun e => matches_irk aes a (peer_irk e)) l) eqn:Ef.
    + eexists; reflexivity.
    + exfalso. eapply find_none in Ef; [|exact Hi]. cbn in Ef. congruence.
Qed.

(** The target check of a directed advertisement. *)
Lemma target_resolves enabled l target adv :
  resolve_target_a aes enabled l target adv = true ->
  enabled = true /\ is_rpa target = true /\
  exists e, In e l /\ adv = peer_device_address (peer_identity_address e) (peer_identity_type e) /\
    matches_irk aes target (local_irk e) = true.
Proof.
  unfold resolve_target_a. intros H. apply andb_true_iff in H as [-> H].
  apply existsb_exists in H as (e & Hi & H). apply andb_true_iff in H as [E M].
  split; [reflexivity|]. split; [eapply matches_is_rpa; exact M|].
  exists e. split; [exact Hi|]. split; [|exact M].
  unfold awt_eqb in E. apply andb_true_iff in E as [E1 E2]. apply list_eqb_eq in E1.
  destruct adv as [aa at_]; cbn in *. subst aa. unfold peer_device_address.
  destruct at_, (peer_identity_type e); try discriminate; reflexivity.
Qed.
End WithCipher.
