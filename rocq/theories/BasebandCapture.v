(** Proofs about the records of the baseband capture. *)
From Verif Require Import Prelude Sniffer SnifferSpec SnifferProofs Baseband BasebandSpec BasebandProofs.
Open Scope N_scope.
Ltac Zify.zify_post_hook ::= Z.div_mod_to_equations.

(** * The header *)
Definition fields (a b : N) (f g s : bool) : N :=
  N.lor a (N.lor (N.shiftl b 3) (N.lor (N.shiftl (bit f) 7) (N.lor (N.shiftl (bit g) 8) (N.shiftl (bit s) 9)))).
Definition fields_ok (a b : N) (f g s : bool) : bool :=
  let h := fields a b f g s in
  (h <? 1024) && (h mod 8 =? a) && (h / 8 mod 16 =? b) && (h / 128 mod 2 =? bit f) && (h / 256 mod 2 =? bit g) && (h / 512 mod 2 =? bit s).
Lemma fields_all : forallb (fun a => forallb (fun b =>
  fields_ok a b true true true && fields_ok a b true true false && fields_ok a b true false true && fields_ok a b true false false &&
  fields_ok a b false true true && fields_ok a b false true false && fields_ok a b false false true && fields_ok a b false false false) (upto 16)) (upto 8) = true.
Proof. vm_compute. reflexivity. Qed.
Lemma fields_spec a b f g s : a < 8 -> b < 16 -> fields_ok a b f g s = true.
Proof.
  intros A B. pose proof (sweep_n 8 _ fields_all a A) as H. cbv beta in H. pose proof (sweep_n 16 _ H b B) as X. cbv beta in X.
  rewrite !andb_true_iff in X. destruct f, g, s; tauto.
Qed.

Lemma header_spec uap lt ty f g s : uap < 256 ->
  let h := build_header uap lt ty f g s in
  header_ok uap h /\
  exists c, read_header h = Header (lt mod 8) (ty mod 16) (bit f) (bit g) (bit s) c.
Proof.
  intros U. unfold build_header.
  change (N.land lt 7) with (N.land lt (N.ones 3)). change (N.land ty 15) with (N.land ty (N.ones 4)). rewrite !N.land_ones.
  change (2 ^ 3) with 8. change (2 ^ 4) with 16.
  assert (A : lt mod 8 < 8) by (apply N.mod_lt; discriminate). assert (B : ty mod 16 < 16) by (apply N.mod_lt; discriminate).
  pose proof (fields_spec _ _ f g s A B) as F. unfold fields_ok, fields in F. cbv zeta in F. cbv zeta.
  set (h := N.lor (lt mod 8) _) in *. rewrite !andb_true_iff, !N.eqb_eq, N.ltb_lt in F.
  destruct F as (((((F0 & F1) & F2) & F3) & F4) & F5).
  destruct (hec_remainder uap h U) as [L R]. set (c := header_error_check uap h) in *.
  rewrite (lor_shiftl_disjoint h c 10 F0). change (2 ^ 10) with 1024.
  assert (E1 : (h + 1024 * c) mod 1024 = h) by (clear - F0; lia).
  assert (E2 : (h + 1024 * c) / 1024 = c) by (clear - F0; lia).
  split.
  - split; [change (2 ^ 18) with 262144; clear - F0 L; lia|]. rewrite E1, E2. exact R.
  - exists c. unfold read_header. rewrite E2. clear E1 E2 R L. clearbody h c. f_equal.
    + rewrite <- F1. clear. lia.
    + rewrite <- F2. clear. lia.
    + rewrite <- F3. clear. lia.
    + rewrite <- F4. clear. lia.
    + rewrite <- F5. clear. lia.
Qed.

(** * The file *)
Fixpoint bodies (rs : list received) : list (list N) :=
  match rs with
  | [] => []
  | r :: rs => match record_of r with Some b => b :: bodies rs | None => bodies rs end
  end.
Fixpoint encoded (rs : list received) : list N :=
  match rs with
  | [] => []
  | r :: rs => match record_of r with Some b => write_record_header (when r) (lenN b) ++ b ++ encoded rs | None => encoded rs end
  end.

Lemma capture_encoded rs : forall out, fold_left append_record rs out = out ++ encoded rs.
Proof.
  induction rs as [|r rs IH]; intros out; cbn [fold_left encoded]; [now rewrite app_nil_r|].
  rewrite IH. unfold append_record. destruct (record_of r); [|reflexivity]. now rewrite <- !app_assoc.
Qed.

Lemma read_one_body f t b rest : lenN b < 4294967296 ->
  read_bodies (S f) (write_record_header t (lenN b) ++ b ++ rest) =
  match read_bodies f rest with Some rs => Some (b :: rs) | None => None end.
Proof.
  intros L. unfold write_record_header. cbv zeta.
  set (A := le 4 (t / 1000000)). set (B := le 4 (t mod 1000000 / 1000)). set (C := le 4 (lenN b)).
  assert (LA : length A = 4%nat) by apply le_length. assert (LB : length B = 4%nat) by apply le_length. assert (LC : length C = 4%nat) by apply le_length.
  assert (FC : from_le C = lenN b) by (apply from_le_le4; exact L).
  rewrite <- !app_assoc.
  assert (E1 : firstn 4 (skipn 8 (A ++ B ++ C ++ C ++ b ++ rest)) = C).
  { rewrite (app_assoc A B), (skipn_len4 (A ++ B)) by (rewrite app_length; lia). now apply firstn_len4. }
  assert (E2 : firstn 4 (skipn 12 (A ++ B ++ C ++ C ++ b ++ rest)) = C).
  { rewrite (app_assoc A B), (app_assoc (A ++ B) C), (skipn_len4 ((A ++ B) ++ C)) by (rewrite !app_length; lia). now apply firstn_len4. }
  assert (E3 : skipn 16 (A ++ B ++ C ++ C ++ b ++ rest) = b ++ rest).
  { rewrite (app_assoc A B), (app_assoc (A ++ B) C), (app_assoc ((A ++ B) ++ C) C), (skipn_len4 (((A ++ B) ++ C) ++ C)) by (rewrite !app_length; lia). reflexivity. }
  assert (E4 : length (A ++ B ++ C ++ C ++ b ++ rest) = (16 + length (b ++ rest))%nat) by (rewrite (app_length A), (app_length B), (app_length C), (app_length C); lia).
  remember (A ++ B ++ C ++ C ++ b ++ rest) as l eqn:Q. destruct l as [|x l]; [cbn in E4; lia|].
  cbn [read_bodies]. rewrite E1, E2, E3, E4, FC, Nat.eqb_refl. unfold lenN. rewrite Nat2N.id.
  replace (Nat.ltb (16 + length (b ++ rest)) 16) with false by (symmetry; apply Nat.ltb_ge; lia).
  replace (Nat.ltb (length (b ++ rest)) (length b)) with false by (symmetry; apply Nat.ltb_ge; rewrite app_length; lia).
  cbn [negb orb]. rewrite (firstn_len4 b rest) by reflexivity. rewrite (skipn_len4 b rest) by reflexivity. reflexivity.
Qed.

Lemma base_length a t : length (base_record a t) = 22%nat.
Proof. unfold base_record. now rewrite !app_length, !le_length. Qed.

Lemma some_eq {A} (x y : A) : Some x = Some y -> y = x.
Proof. congruence. Qed.

Lemma record_length r b : record_of r = Some b -> (22 <= length b)%nat /\ (forall p, what r = Lmp p -> lenN p < 4294967000 -> lenN b < 4294967296) /\
  (forall c, what r = Page c -> lenN b < 4294967296).
Proof.
  unfold record_of. destruct (what r) as [c|p|]; intros E; [| |discriminate]; apply some_eq in E as ->; rewrite app_length, base_length; (split; [lia|split]); try discriminate.
  - intros c' [= <-]. unfold lenN, fhs_payload. rewrite !app_length, base_length, !le_length. reflexivity.
  - intros p' [= <-] L. unfold lenN, dm1_payload in *. rewrite !app_length, base_length, le_length. cbn [length]. lia.
Qed.

Definition sizes (rs : list received) : Prop := forall r p, In r rs -> what r = Lmp p -> lenN p < 4294967000.

Lemma read_encoded rs : forall f, sizes rs -> (length (encoded rs) <= f)%nat -> read_bodies f (encoded rs) = Some (bodies rs).
Proof.
  induction rs as [|r rs IH]; intros f S L; cbn [encoded bodies] in *; [now destruct f|].
  assert (S' : sizes rs) by (intros x p I; apply S; now right).
  destruct (record_of r) as [b|] eqn:E; [|apply IH; assumption].
  destruct (record_length _ _ E) as (A & B & C).
  assert (LB : lenN b < 4294967296).
  { unfold record_of in E. destruct (what r) as [c|p|] eqn:W; [eapply C; eauto| |discriminate]. eapply B; eauto. eapply S; [now left|exact W]. }
  unfold write_record_header in L. cbv zeta in L. rewrite !app_length, !le_length in L.
  destruct f as [|f]; [lia|]. rewrite read_one_body by exact LB. rewrite IH; [reflexivity|exact S'|lia].
Qed.

Lemma capture_reads rs : sizes rs -> read_bb_file (capture rs) = Some (bodies rs).
Proof.
  intros S. unfold capture. rewrite capture_encoded. unfold read_bb_file.
  assert (E : length (write_header 255 ++ encoded rs) = (24 + length (encoded rs))%nat) by (now rewrite app_length).
  rewrite E. replace (Nat.ltb (24 + length (encoded rs)) 24) with false by (symmetry; apply Nat.ltb_ge; lia).
  change (write_header 255 ++ encoded rs) with (le 4 0xa1b2c3d4 ++ skipn 4 (write_header 255) ++ encoded rs) at 1.
  rewrite (firstn_len4 (le 4 0xa1b2c3d4)) by reflexivity. change (from_le (le 4 0xa1b2c3d4) =? 0xa1b2c3d4) with true. cbn [negb].
  assert (E2 : firstn 4 (skipn 20 (write_header 255 ++ encoded rs)) = le 4 255) by reflexivity. rewrite E2.
  change (from_le (le 4 255) =? 255) with true. cbn [negb]. rewrite (skipn_len4 (write_header 255)) by reflexivity.
  apply read_encoded; [exact S|lia].
Qed.

(** * One record *)
Definition address_ok (a : list N) : Prop := length a = 6%nat /\ Forall (fun b => b < 256) a.

Lemma octet_lt a i : Forall (fun b => b < 256) a -> octet a i < 256.
Proof.
  intros F. unfold octet. destruct (nth_in_or_default i a 0) as [I| ->]; [|lia]. rewrite Forall_forall in F. now apply F.
Qed.

Lemma base_read a t p : address_ok a -> t < 16 ->
  exists r, read_bb (base_record a t ++ p) = Some r /\ b_transport r = 3 /\
    b_lower_lap r = octet a 0 /\ b_ref_lap r = octet a 0 /\ b_ref_uap r = octet a 3 /\
    header_ok (octet a 3) (b_header r) /\
    (exists c, read_header (b_header r) = Header 0 t 1 1 1 c) /\ b_payload r = p.
Proof.
  intros [LA FA] T. unfold read_bb.
  replace (Nat.ltb (length (base_record a t ++ p)) 22) with false by (symmetry; apply Nat.ltb_ge; rewrite app_length, base_length; lia).
  eexists. split; [reflexivity|]. cbn [b_transport b_lower_lap b_ref_lap b_ref_uap b_header b_payload].
  rewrite (skipn_len4 (base_record a t) p 22) by apply base_length.
  assert (U : uap_of a < 256) by now apply octet_lt.
  destruct (header_spec (uap_of a) 0 t true true true U) as [H1 (c & H2)]. set (h := build_header _ _ _ _ _ _) in *.
  assert (LO : lap_of a mod 256 = octet a 0).
  { pose proof (octet_lt a 0 FA). unfold lap_of. lia. }
  unfold base_record. fold h. rewrite LO. pose proof (octet_lt a 0 FA) as O0.
  set (x := le 4 (octet a 0)). set (y := le 3 (octet a 0)). set (z := le 4 h).
  assert (LX : length x = 4%nat) by apply le_length. assert (LY : length y = 3%nat) by apply le_length. assert (LZ : length z = 4%nat) by apply le_length.
  assert (FX : from_le x = octet a 0) by (apply from_le_le4; lia).
  assert (FY : from_le y = octet a 0) by (unfold y; rewrite from_le_le; apply N.mod_small; change (256 ^ N.of_nat 3) with 16777216; lia).
  assert (FZ : from_le z = h). { apply from_le_le4. destruct H1 as [H1 _]. change (2 ^ 18) with 262144 in H1. lia. }
  destruct x as [|x0 [|x1 [|x2 [|x3 [|]]]]]; try discriminate. destruct y as [|y0 [|y1 [|y2 [|]]]]; try discriminate.
  destruct z as [|z0 [|z1 [|z2 [|z3 [|]]]]]; try discriminate.
  cbn [app le nth firstn skipn]. rewrite FX, FY, FZ. change ((0 + 16 * 3) / 16) with 3.
  repeat (split; [first [reflexivity|exact H1]|]). split; [|reflexivity].
  exists c. rewrite H2. rewrite (N.mod_small t 16) by exact T. reflexivity.
Qed.

Lemma fhs_read a c : address_ok a -> c < 2 ^ 24 ->
  fhs_lap (fhs_payload a c) = octet a 0 + 256 * octet a 1 + 65536 * octet a 2 /\
  fhs_uap (fhs_payload a c) = octet a 3 /\ fhs_nap (fhs_payload a c) = octet a 4 + 256 * octet a 5 /\ fhs_class (fhs_payload a c) = c.
Proof.
  intros [LA FA] C. unfold fhs_lap, fhs_uap, fhs_nap, fhs_class, fhs_bits, fhs_payload.
  rewrite (firstn_len4 (le 18 _)) by apply le_length. rewrite from_le_le.
  pose proof (octet_lt a 0 FA). pose proof (octet_lt a 1 FA). pose proof (octet_lt a 2 FA). pose proof (octet_lt a 3 FA). pose proof (octet_lt a 4 FA). pose proof (octet_lt a 5 FA).
  assert (B1 : lap_of a < 2 ^ 24) by (unfold lap_of; change (2 ^ 24) with 16777216; lia).
  assert (B2 : uap_of a < 2 ^ 8) by (unfold uap_of; change (2 ^ 8) with 256; lia).
  assert (B3 : nap_of a < 2 ^ 16) by (unfold nap_of; change (2 ^ 16) with 65536; lia).
  fold (lap_of a). fold (nap_of a). fold (uap_of a). rewrite !N.mul_0_r, !N.add_0_r, !N.add_0_l, N.mul_1_r.
  set (l := lap_of a) in *. set (u := uap_of a) in *. set (n := nap_of a) in *. clearbody l u n.
  clear - B1 B2 B3 C. change (256 ^ N.of_nat 18) with (2 ^ 144).
  rewrite (N.mod_small _ (2 ^ 144)).
  2: { change (2 ^ 144) with 0x1000000000000000000000000000000000000. change (2 ^ 34) with 0x400000000. change (2 ^ 64) with 0x10000000000000000.
       change (2 ^ 72) with 0x1000000000000000000. change (2 ^ 88) with 0x10000000000000000000000. change (2 ^ 112) with 0x10000000000000000000000000000.
       change (2 ^ 24) with 16777216 in *. change (2 ^ 8) with 256 in *. change (2 ^ 16) with 65536 in *. lia. }
  change (2 ^ 34) with 0x400000000. change (2 ^ 64) with 0x10000000000000000.
  change (2 ^ 72) with 0x1000000000000000000. change (2 ^ 88) with 0x10000000000000000000000. change (2 ^ 112) with 0x10000000000000000000000000000.
  change (2 ^ 24) with 16777216 in *. change (2 ^ 8) with 256 in *. change (2 ^ 16) with 65536 in *.
  repeat split; lia.
Qed.

Lemma dm1_read p : lenN p < 32 -> dm1_llid (dm1_payload p) = 3 /\ dm1_bytes (dm1_payload p) = p.
Proof.
  intros L. unfold dm1_bytes, dm1_length, dm1_llid, dm1_payload. rewrite (N.mod_small _ 32) by exact L. cbn [app nth skipn].
  split; [lia|]. replace ((3 + 4 * 1 + 8 * lenN p) / 8) with (lenN p) by lia. unfold lenN. rewrite Nat2N.id. now apply firstn_len4.
Qed.

(** * The whole capture *)
Definition fits (r : received) : Prop :=
  address_ok (source r) /\
  match what r with Page c => c < 2 ^ 24 | Lmp p => lenN p < 32 | Other => True end.

Definition shown (r : received) (body : list N) : Prop :=
  match what r with
  | Page c => record_shows (source r) 2 (fun p =>
      fhs_lap p = nth 0 (source r) 0 + 256 * nth 1 (source r) 0 + 65536 * nth 2 (source r) 0 /\
      fhs_uap p = nth 3 (source r) 0 /\ fhs_nap p = nth 4 (source r) 0 + 256 * nth 5 (source r) 0 /\ fhs_class p = c) body
  | Lmp l => record_shows (source r) 3 (fun p => dm1_llid p = 3 /\ dm1_bytes p = l) body
  | Other => False
  end.

Definition captured (r : received) : bool := match what r with Other => false | _ => true end.

Lemma shown_all rs : Forall fits rs -> Forall2 shown (filter captured rs) (bodies rs).
Proof.
  induction 1 as [|r rs [A F] _ IH]; cbn [filter bodies]; [constructor|].
  unfold captured at 1, record_of. destruct (what r) as [c|p|] eqn:W; [| |exact IH]; (constructor; [|exact IH]); unfold shown; rewrite W.
  - destruct (base_read (source r) 2 (fhs_payload (source r) c) A eq_refl) as (x & X1 & X2 & X3 & X4 & X5 & X6 & (d & X7) & X8).
    exists x, d. repeat (split; [assumption|]). rewrite X8. now apply fhs_read.
  - destruct (base_read (source r) 3 (dm1_payload p) A eq_refl) as (x & X1 & X2 & X3 & X4 & X5 & X6 & (d & X7) & X8).
    exists x, d. repeat (split; [assumption|]). rewrite X8. now apply dm1_read.
Qed.

Lemma capture_shows rs : Forall fits rs -> exists bs, read_bb_file (capture rs) = Some bs /\ Forall2 shown (filter captured rs) bs.
Proof.
  intros F. exists (bodies rs). split; [|now apply shown_all]. apply capture_reads.
  intros r p I W. rewrite Forall_forall in F. destruct (F r I) as [_ X]. rewrite W in X. lia.
Qed.

Lemma lap_witness : exists r b x, fits r /\ read_bb_file (capture [r]) = Some [b] /\ read_bb b = Some x /\
  b_lower_lap x <> lap_of (source r) /\ b_ref_lap x <> lap_of (source r).
Proof.
  exists (Received [1; 2; 3; 4; 5; 6] (Lmp [7; 8]) 0). eexists. eexists.
  split; [split; [split; [reflexivity|repeat constructor]|reflexivity]|].
  split; [vm_compute; reflexivity|]. split; [vm_compute; reflexivity|]. split; discriminate.
Qed.
