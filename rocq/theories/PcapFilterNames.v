(** Proof that the capture does not depend on names, GAP data included. *)
From Verif Require Import Prelude PcapFilter PcapFilterSpec PcapFilterProofs.
Open Scope N_scope.

Section Renaming.
Variable f : list N -> list N.
Hypothesis Hf : injective_renaming f.

Lemma list_eqb_ren2 a b : list_eqb (f a) (f b) = list_eqb a b.
Proof.
  destruct Hf as (Hi & _). destruct (list_eqb a b) eqn:E.
  - apply list_eqb_eq in E. subst. apply list_eqb_refl.
  - destruct (list_eqb (f a) (f b)) eqn:E2; [|reflexivity].
    apply list_eqb_eq, Hi in E2. subst. now rewrite list_eqb_refl in E.
Qed.

Lemma find_ren2 m n : find_name (ren f m) (f n) = find_name m n.
Proof. induction m as [|[o w] m IH]; cbn; [reflexivity|]. rewrite list_eqb_ren2. now destruct (list_eqb o n). Qed.

Lemma change_ren2 pd m n : change_device_name pd (ren f m) (f n) =
  let '(m', w) := change_device_name pd m n in (ren f m', w).
Proof.
  unfold change_device_name. rewrite find_ren2. destruct (find_name m n); [reflexivity|].
  unfold lenN, ren. rewrite map_length, map_app. cbn.
  destruct Hf as (_ & Hl). now rewrite Hl.
Qed.

Lemma nil_ren : f [] = [].
Proof. destruct Hf as (_ & Hl). specialize (Hl []). now destruct (f []). Qed.

Lemma ad_differ_shape a a' : ad_differ f a a' ->
  length (ad_data a') = length (ad_data a) /\ is_name a' = is_name a /\
  (is_name a = true -> f (removelast (ad_type a :: ad_data a)) = removelast (ad_type a' :: ad_data a')
     /\ last (ad_type a' :: ad_data a') 0 = last (ad_type a :: ad_data a) 0).
Proof.
  destruct Hf as (_ & Hl). intros [b E|b E|ty n x n' T E]; (split; [|split]).
  - reflexivity. - reflexivity. - congruence.
  - reflexivity. - reflexivity. - rewrite E. cbn. intros _. split; [exact nil_ren|reflexivity].
  - cbn [ad_data]. rewrite !app_length. f_equal. pose proof (Hl (ty :: n)) as K. rewrite E in K. now injection K.
  - reflexivity.
  - intros _. cbn [ad_type ad_data]. rewrite !app_comm_cons, !removelast_last, !last_last. auto.
Qed.

Lemma ads_ren ads ads' k : Forall2 (ad_differ f) ads ads' -> Forall ad_ok ads -> forall m,
  filter_gap (ren f m) (flat_map ad_bytes ads' ++ repeat 0 k)
  = let '(m', r) := filter_gap m (flat_map ad_bytes ads ++ repeat 0 k) in (ren f m', r).
Proof.
  induction 1 as [|a a' ads ads' D _ IH]; intros W m.
  { cbn [flat_map app]. now rewrite !gap_zeros. }
  inversion W as [|? ? W1 W2]; subst. destruct (ad_differ_shape _ _ D) as (L & E & R).
  assert (W1' : ad_ok a') by (unfold ad_ok in *; now rewrite L).
  cbn [flat_map]. rewrite <- !app_assoc, !gap_step by assumption. rewrite E. unfold lenN. rewrite L.
  destruct (is_name a) eqn:Na.
  - destruct (R eq_refl) as [R1 R2]. rewrite <- R1, R2, change_ren2.
    destruct (change_device_name true m _) as [m1 new]. rewrite (IH W2).
    now destruct (filter_gap m1 _).
  - assert (a' = a) as ->.
    { inversion D as [| |ty n x n' T F]; subst; try reflexivity. destruct T; subst; discriminate. }
    rewrite (IH W2). now destruct (filter_gap m _).
Qed.

Lemma gap_ren2 d d' m : gap_differ f d d' ->
  filter_gap (ren f m) d' = (let '(m', r) := filter_gap m d in (ren f m', r)) /\ length d' = length d.
Proof.
  intros [ads ads' k W D]. split; [now apply ads_ren|].
  rewrite !app_length. f_equal. clear - Hf D. induction D as [|a a' ads ads' D _ IH]; [reflexivity|].
  cbn [flat_map]. rewrite !app_length. f_equal; [|exact IH]. unfold ad_bytes.
  destruct (ad_differ_shape _ _ D) as (L & _ & _). cbn [length app]. now rewrite L.
Qed.

Lemma adv_ren2 rs rs' : Forall2 (fun r r' => ar_head r' = ar_head r /\ ar_rssi r' = ar_rssi r /\ gap_differ f (ar_data r) (ar_data r')) rs rs' ->
  forall m, filter_adv (ren f m) rs' = let '(m', r) := filter_adv m rs in (ren f m', r).
Proof.
  induction 1 as [|r r' rs rs' (E1 & E2 & D) _ IH]; intros m; cbn [filter_adv]; [reflexivity|].
  destruct (gap_ren2 _ _ m D) as [-> _]. destruct (filter_gap m (ar_data r)) as [m1 d].
  rewrite IH. rewrite E1, E2. now destruct (filter_adv m1 rs).
Qed.
Lemma ext_ren2 rs rs' : Forall2 (fun r r' => er_head r' = er_head r /\ gap_differ f (er_data r) (er_data r')) rs rs' ->
  forall m, filter_ext (ren f m) rs' = let '(m', r) := filter_ext m rs in (ren f m', r).
Proof.
  induction 1 as [|r r' rs rs' (E1 & D) _ IH]; intros m; cbn [filter_ext]; [reflexivity|].
  destruct (gap_ren2 _ _ m D) as [-> _]. destruct (filter_gap m (er_data r)) as [m1 d].
  rewrite IH. rewrite E1. now destruct (filter_ext m1 rs).
Qed.

Lemma packet_ren2 m p p' : differ_everywhere f p p' ->
  filter_packet (ren f m) p' = let '(m', q) := filter_packet m p in (ren f m', q).
Proof.
  intros D. destruct D as [p n Hn|p d d' Hd Hl|fec d d' D|b d d' D|b h op fr d d' D|h op d d' D|num fec d d' D
                          |ad ps c k r d d' D|rs rs' D|rs rs' D|p Hn Hd Hg].
  - rewrite (filter_name_field _ _ _ Hn).
    assert (Hn' : name_of (with_name p (f n)) = Some (f n)).
    { destruct p; cbn in *; try discriminate; try reflexivity; now destruct (status =? 0). }
    rewrite (filter_name_field _ _ _ Hn'), change_ren2.
    destruct (change_device_name false m n). f_equal. now destruct p.
  - destruct p; cbn in *; try discriminate; injection Hd as ->; now rewrite Hl.
  - cbn [filter_packet]. destruct (gap_ren2 _ _ m D) as [-> _]. now destruct (filter_gap m d).
  - cbn [filter_packet]. destruct (gap_ren2 _ _ m D) as [-> _]. now destruct (filter_gap m d).
  - cbn [filter_packet]. destruct (gap_ren2 _ _ m D) as [-> _]. now destruct (filter_gap m d).
  - cbn [filter_packet]. destruct (gap_ren2 _ _ m D) as [-> _]. now destruct (filter_gap m d).
  - cbn [filter_packet N.eqb]. destruct (gap_ren2 _ _ m D) as [-> _]. now destruct (filter_gap m d).
  - cbn [filter_packet]. destruct (gap_ren2 _ _ m D) as [-> _]. now destruct (filter_gap m d).
  - cbn [filter_packet]. rewrite (adv_ren2 _ _ D). now destruct (filter_adv m rs).
  - cbn [filter_packet]. rewrite (ext_ren2 _ _ D). now destruct (filter_ext m rs).
  - destruct p; cbn in *; try discriminate; try reflexivity;
      repeat match goal with H : (if ?c then _ else _) = None |- _ =>
        destruct c; try discriminate end; try reflexivity.
    all: match type of Hg with map _ ?l = [] => destruct l; [reflexivity|discriminate] end.
Qed.

Lemma differ_wf2 p p' : differ_everywhere f p p' -> well_formed p -> well_formed p'.
Proof.
  pose proof (proj2 Hf) as Hl.
  intros D W. destruct D as [p n Hn|p d d' Hd Hd'|fec d d' D|b d d' D|b h op fr d d' D|h op d d' D|num fec d d' D
                          |ad ps c k r d d' D|rs rs' D|rs rs' D|p Hn Hd Hg]; try exact W;
    try (destruct (gap_ren2 _ _ [] D) as [_ L]; cbn [well_formed] in *; rewrite L; exact W).
  - destruct p; cbn in *; try discriminate; try exact W;
      repeat match goal with H : (if ?c then _ else _) = Some _ |- _ =>
        destruct c; try discriminate end; injection Hn as <-; rewrite Hl; exact W.
  - destruct p; cbn in *; try discriminate; injection Hd as <-; unfold lenN in *;
      rewrite ?Hd'; exact W.
  - cbn [well_formed] in *. induction D as [|r r' rs rs' (E1 & E2 & D) F IH]; [constructor|].
    inversion W; subst. constructor; [now rewrite E1|now apply IH].
  - cbn [well_formed] in *. induction D as [|r r' rs rs' (E1 & D) F IH]; [constructor|].
    inversion W; subst. constructor; [now rewrite E1|now apply IH].
Qed.

Lemma capture_ren2 ps : forall ps' m, Forall2 (differ_everywhere f) ps ps' ->
  Forall well_formed ps ->
  filter_all (ren f m) (map framed ps') =
  match filter_all m (map framed ps) with
  | Some (m', os) => Some (ren f m', os)
  | None => None
  end.
Proof.
  induction ps as [|p ps IH]; intros ps' m D W; inversion D; subst; [reflexivity|].
  inversion W; subst. cbn [map filter_all].
  change (framed y) with (encode y, idc y). change (framed p) with (encode p, idc p).
  cbn iota. rewrite (filter_encoded _ y) by (apply (differ_wf2 p); assumption). rewrite (filter_encoded _ p) by assumption.
  rewrite (packet_ren2 m p y) by assumption.
  destruct (filter_packet m p) as [m1 q]. rewrite IH by assumption.
  destruct (filter_all m1 _) as [[m2 os]|]; reflexivity.
Qed.
End Renaming.

Lemma capture_hides_all_names f ps ps' m os m' os' : injective_renaming f ->
  Forall2 (differ_everywhere f) ps ps' -> Forall well_formed ps ->
  filter_all [] (map framed ps) = Some (m, os) -> filter_all [] (map framed ps') = Some (m', os') -> os' = os.
Proof.
  intros Hf D W A B. pose proof (capture_ren2 f Hf ps ps' [] D W) as C. cbn [ren map] in C.
  rewrite A, B in C. congruence.
Qed.

(** Two reports of a device, "AB" and "CB" *)
Definition swap (l : list N) : list N := map (fun b => if b =? 65 then 67 else if b =? 67 then 65 else b) l.
Lemma swap_renaming : injective_renaming swap.
Proof.
  split; [|intros x; apply map_length].
  assert (S : forall b, (fun b => if b =? 65 then 67 else if b =? 67 then 65 else b) ((fun b => if b =? 65 then 67 else if b =? 67 then 65 else b) b) = b).
  { intros b. cbn beta. destruct (N.eqb_spec b 65) as [->|]; [reflexivity|].
    destruct (N.eqb_spec b 67) as [->|]; [reflexivity|]. destruct (N.eqb_spec b 65); [contradiction|].
    destruct (N.eqb_spec b 67); [contradiction|reflexivity]. }
  assert (I : forall x, swap (swap x) = x).
  { intros x. unfold swap. rewrite map_map. erewrite map_ext; [apply map_id|]. exact S. }
  intros x y E. rewrite <- (I x), E. apply I.
Qed.
Lemma hidden_witness : exists p p', p <> p' /\ well_formed p /\ differ_everywhere swap p p' /\
  p = LeSetAdvertisingData false (ad_bytes {| ad_type := 9; ad_data := [65; 66] |}) /\
  p' = LeSetAdvertisingData false (ad_bytes {| ad_type := 9; ad_data := [67; 66] |}).
Proof.
  eexists _, _. repeat split; [discriminate|cbn; lia|].
  change (ad_bytes {| ad_type := 9; ad_data := [65; 66] |}) with (flat_map ad_bytes [{| ad_type := 9; ad_data := [65] ++ [66] |}] ++ repeat 0 0).
  change (ad_bytes {| ad_type := 9; ad_data := [67; 66] |}) with (flat_map ad_bytes [{| ad_type := 9; ad_data := [67] ++ [66] |}] ++ repeat 0 0).
  apply de_adv_data. constructor; [repeat constructor; unfold ad_ok; cbn; lia|].
  constructor; [|constructor]. apply ad_renamed; [now right|reflexivity].
Qed.
