(** Data over LE links: where isochronous packets come from, isochronous data received,
    supervision of links. *)
From Coq Require Import Sorted.
From Verif Require Import Prelude Table LeData LeDataSpec LeDataProofs.
From Verif Require Iso.
Open Scope N_scope.

(** * The origin of isochronous packets *)

Lemma origin_more : forall e h o, origin h o -> origin (e :: h) o.
Proof. intros e h o (e' & p & c & a & x & y & q & d & I & R). exists e', p, c, a, x, y, q, d. split; [now right|exact R]. Qed.

Lemma pdu_origins : forall h s, history h s -> timely h -> Forall (origin h) (filter is_pdu (said h ++ waiting s)).
Proof.
  intros h s H. induction H as [|h s e t o s' x H IH S E]; intros T; [constructor|].
  assert (HH : history (Entry t e (open_links s) o x :: h) s') by (econstructor; eassumption).
  assert (T0 : timely h) by (destruct h; cbn in T; tauto).
  assert (I : inv t s). { apply (history_inv h s t H T0). intros e'' F. destruct h; [discriminate|]. injection F as ->. cbn in T. tauto. }
  specialize (IH T0). assert (IH' : Forall (origin (Entry t e (open_links s) o x :: h)) (filter is_pdu (said h ++ waiting s))).
  { eapply Forall_impl; [|exact IH]. intros y. apply origin_more. }
  cbn [said out]. rewrite <- app_assoc, filter_app.
  assert (OTHER : (forall p, o <> HostIso p) -> Forall (origin (Entry t e (open_links s) o x :: h)) (filter is_pdu (said h) ++ filter is_pdu (x ++ waiting s'))).
  { intros N. rewrite (step_pdu _ _ _ _ _ _ E N I), <- filter_app. exact IH'. }
  destruct o; try (apply OTHER; intros ?; discriminate). clear OTHER. cbn [step] in E.
  destruct (handle_iso e t p s) as [s1|] eqn:HI; [|discriminate]. injection E as <- <-.
  destruct (handle_iso_pdu _ _ _ _ _ HI) as (l & A & O). destruct (A I) as (_ & W). cbn [app]. rewrite W, filter_app, app_assoc, <- filter_app.
  apply Forall_app. split; auto. cbn [filter is_pdu]. apply Forall_forall. intros y Y. apply filter_In in Y as (Y & _).
  destruct (O y Y) as (c & a & w & q & d & C & L & AA & CL & EQ & LE). exists (Entry t e (open_links s) (HostIso p) []), p, c, a, (own w), (peer w), q, d.
  cbn [what seen known]. repeat split; auto; [now left|]. rewrite open_lookup, L. reflexivity.
Qed.
Theorem pdu_limits : forall h s o, history h s -> timely h -> In o (pdus h) -> origin h o.
Proof.
  intros h s o H T I. pose proof (pdu_origins h s H T) as F. rewrite Forall_forall in F. apply F. rewrite filter_app. apply in_or_app. now left.
Qed.

(** * Isochronous data received *)

Lemma iso_load_header : forall q n d, q < 65536 -> n < 4096 -> iso_load q n d = header None q n ++ d.
Proof.
  intros q n d Q N. unfold iso_load, header, bytes2. cbn [app]. rewrite (N.mod_small n 4096) by auto. rewrite (N.mod_small (q / 256) 256); auto.
  apply N.div_lt_upper_bound; lia.
Qed.
Lemma lenN_firstn : forall (A : Type) (l : list A) n, lenN (firstn (N.to_nat n) l) = N.min n (lenN l).
Proof. intros A l n. unfold lenN. rewrite firstn_length. lia. Qed.
Lemma lenN_skipn : forall (A : Type) (l : list A) n, lenN (skipn (N.to_nat n) l) = lenN l - n.
Proof. intros A l n. unfold lenN. rewrite skipn_length. lia. Qed.

Lemma pieces_fragments : forall fuel h q n d, q < 65536 -> n < 4096 -> (length d < fuel)%nat ->
  exists l, l <> [] /\ concat l = d /\ Forall (fun c => lenN c <= 4091) l /\
    pieces fuel h q n (if lenN d <=? kMaxPayloadSize then LAST else CONTINUATION) d = map IsoToHost (fragments true h q n l).
Proof.
  induction fuel as [|fuel IH]; intros h q n d Q N L; [lia|]. cbn [pieces]. rewrite iso_load_header by auto.
  pose proof (firstn_skipn (N.to_nat kMaxPayloadSize) d) as FS. pose proof (lenN_firstn _ d kMaxPayloadSize) as LF. pose proof (lenN_skipn _ d kMaxPayloadSize) as LS.
  destruct (skipn (N.to_nat kMaxPayloadSize) d) as [|x r] eqn:R.
  - rewrite app_nil_r in FS. rewrite FS in *. destruct (N.leb_spec (lenN d) kMaxPayloadSize); [|rewrite lenN_nil in LS; lia].
    exists [d]. repeat split; [easy|cbn; apply app_nil_r|repeat constructor; change kMaxPayloadSize with 4091 in *; lia].
  - destruct (IH h q n (x :: r) Q N) as (l & NE & C & F & P).
    { assert (length (x :: r) < length d)%nat; [|lia]. rewrite <- R, skipn_length. rewrite lenN_cons in LS. change kMaxPayloadSize with 4091 in *. unfold lenN in LS. lia. }
    exists (firstn (N.to_nat kMaxPayloadSize) d :: l). split; [easy|]. split; [cbn [concat]; now rewrite C|]. split; [constructor; auto; change kMaxPayloadSize with 4091 in *; lia|].
    destruct (N.leb_spec (lenN d) kMaxPayloadSize); [rewrite lenN_cons in LS; lia|]. rewrite P. destruct l as [|d' l]; [easy|]. reflexivity.
Qed.
Lemma pieces_packets : forall h q d, q < 65536 -> lenN d < 4096 ->
  exists l, l <> [] /\ concat l = d /\ Forall (fun c => lenN c <= 4091) l /\ (lenN d <= 4091 -> l = [d]) /\
    pieces (S (length d)) h q (lenN d mod 65536) (if lenN d <=? kMaxPayloadSize then COMPLETE else FIRST) d = map IsoToHost (packets_of true (Unit h None q l)).
Proof.
  intros h q d Q N. rewrite (N.mod_small (lenN d)) by lia. cbn [pieces]. rewrite iso_load_header by auto.
  pose proof (firstn_skipn (N.to_nat kMaxPayloadSize) d) as FS. pose proof (lenN_firstn _ d kMaxPayloadSize) as LF. pose proof (lenN_skipn _ d kMaxPayloadSize) as LS.
  destruct (skipn (N.to_nat kMaxPayloadSize) d) as [|x r] eqn:R.
  - rewrite app_nil_r in FS. rewrite FS in *. destruct (N.leb_spec (lenN d) kMaxPayloadSize); [|rewrite lenN_nil in LS; lia].
    exists [d]. split; [easy|]. split; [cbn; apply app_nil_r|]. split; [repeat constructor; change kMaxPayloadSize with 4091 in *; lia|]. split; [reflexivity|].
    unfold packets_of, whole. cbn [u_chunks u_handle u_stamp u_seq stamped concat map]. now rewrite app_nil_r.
  - destruct (pieces_fragments (length d) h q (lenN d) (x :: r) Q N) as (l & NE & C & F & P).
    { rewrite <- R, skipn_length. rewrite lenN_cons in LS. change kMaxPayloadSize with 4091 in *. unfold lenN in LS. lia. }
    exists (firstn (N.to_nat kMaxPayloadSize) d :: l). split; [easy|]. assert (CC : concat (firstn (N.to_nat kMaxPayloadSize) d :: l) = d) by (cbn [concat]; now rewrite C). split; [exact CC|].
    split; [constructor; auto; change kMaxPayloadSize with 4091 in *; lia|].
    destruct (N.leb_spec (lenN d) kMaxPayloadSize); [rewrite lenN_cons in LS; lia|]. split; [change kMaxPayloadSize with 4091 in *; lia|].
    rewrite P. destruct l as [|d' l]; [easy|]. unfold packets_of, whole. cbn [u_chunks u_handle u_stamp u_seq stamped]. rewrite CC. reflexivity.
Qed.

Lemma iso_out_map : forall l, iso_out (map IsoToHost l) = l.
Proof. induction l as [|p l IH]; auto. cbn. f_equal. exact IH. Qed.

Lemma receive_iso : forall e now f s g c q d s' x, about f = IsoPdu g c q d -> step e now s (Receive f) = Some (s', x) ->
  links_between (destination f) (source f) s <> [] -> q < 65536 -> lenN d < 4096 -> streams_named g c (iso e) <> [] ->
  exists y l, In y (streams_named g c (iso e)) /\ l <> [] /\ concat l = d /\ Forall (fun c => lenN c <= 4091) l /\ (lenN d <= 4091 -> l = [d]) /\
    x = map IsoToHost (packets_of true (Unit y None q l)).
Proof.
  intros e now f s g c q d s' x A H B Q L N. cbn [step] in H. injection H as H. unfold receive, link_of in H. rewrite <- links_between_filter in H. rewrite A in H.
  destruct (Iso.choose _ (links_between _ _ _)) as [k|] eqn:C; [|apply choose_none in C; easy]. injection H as <- <-. unfold incoming_iso, Iso.find_cis.
  fold (streams_named g c (iso e)). destruct (Iso.choose _ (streams_named g c (iso e))) as [y|] eqn:C'; [|apply choose_none in C'; easy].
  destruct (pieces_packets y q d Q L) as (l & R1 & R2 & R3 & R4 & R5). exists y, l. split; [now apply choose_in in C'|]. auto 6.
Qed.

Theorem iso_received : forall e now f s g c q d s' x y, about f = IsoPdu g c q d -> step e now s (Receive f) = Some (s', x) ->
  links_between (destination f) (source f) s <> [] -> q < 65536 -> lenN d < 4096 -> streams_named g c (iso e) = [y] ->
  exists l, l <> [] /\ concat l = d /\ Forall (fun c => lenN c <= 4091) l /\ x = map IsoToHost (packets_of true (Unit y None q l)).
Proof.
  intros e now f s g c q d s' x y A H B Q L N. destruct (receive_iso e now f s g c q d s' x A H B Q L) as (y' & l & I & R1 & R2 & R3 & R4 & R5); [now rewrite N|].
  rewrite N in I. destruct I as [<-|[]]. exists l. auto.
Qed.
Lemma reads_whole : forall y q d, q < 65536 -> lenN d < 4096 -> host_reads (packets_of true (Unit y None q [d])) = Some (q, d).
Proof.
  intros y q d Q L. unfold packets_of, whole. cbn [u_chunks u_handle u_stamp u_seq stamped concat header bytes2 app host_reads]. rewrite app_nil_r. unfold complete.
  rewrite !bytes2_value, (N.mod_small (lenN d)) by auto. now rewrite N.eqb_refl.
Qed.
Theorem iso_read : forall e now f s g c q d s' x y, about f = IsoPdu g c q d -> step e now s (Receive f) = Some (s', x) ->
  links_between (destination f) (source f) s <> [] -> q < 65536 -> lenN d <= 4091 -> streams_named g c (iso e) = [y] ->
  Forall (fun p => i_handle p = y) (iso_out x) /\ host_reads (iso_out x) = Some (q, d).
Proof.
  intros e now f s g c q d s' x y A H B Q L N. destruct (receive_iso e now f s g c q d s' x A H B Q) as (y' & l & I & R1 & R2 & R3 & R4 & R5); [lia|now rewrite N|].
  rewrite N in I. destruct I as [<-|[]]. rewrite (R4 L) in R5. rewrite R5, iso_out_map. split; [unfold packets_of; cbn; repeat constructor|]. apply reads_whole; auto. lia.
Qed.
Theorem iso_ignored : forall e now f s g c q d s' x, about f = IsoPdu g c q d -> step e now s (Receive f) = Some (s', x) ->
  links_between (destination f) (source f) s = [] \/ streams_named g c (iso e) = [] -> x = [].
Proof.
  intros e now f s g c q d s' x A H B. cbn [step] in H. injection H as H. unfold receive, link_of in H. rewrite <- links_between_filter in H. rewrite A in H.
  destruct (Iso.choose _ (links_between _ _ _)) as [k|] eqn:C; [|now injection H as _ <-]. injection H as _ <-. unfold incoming_iso, Iso.find_cis.
  fold (streams_named g c (iso e)). destruct B as [B|B]; rewrite B in *; [discriminate|reflexivity].
Qed.

(** * Supervision *)

Definition checked (s : state) (h : N) (time : N) : Prop :=
  exists t, In t (queue s) /\ todo t = CheckLink h /\ due t <= time.
Record watch (h : list entry) (s : state) : Prop := Watch {
  watch_keys : NoDup (keys (links s));
  watch_check : forall k c, lookup (links s) k = Some c -> checked s k (last_heard c + kTimeout);
  watch_last : forall k c, lookup (links s) k = Some c -> exists e, In e h /\ contact (own c) (peer c) e /\ at_time e = last_heard c }.

Lemma in_schedule : forall t j s u, In u (queue s) -> In u (queue (schedule t j s)).
Proof. intros. cbn [schedule queue]. apply in_insert. now right. Qed.
Lemma checked_schedule : forall t j s k z, checked s k z -> checked (schedule t j s) k z.
Proof. intros t j s k z (u & I & R). exists u. split; auto. now apply in_schedule. Qed.
Lemma checked_new : forall t k s z, t <= z -> checked (schedule t (CheckLink k) s) k z.
Proof. intros t k s z L. exists (Task t (next_id s) (CheckLink k)). split; [|auto]. cbn [schedule queue]. apply in_insert. now left. Qed.

Definition grows (s s' : state) : Prop := forall u, In u (queue s) -> In u (queue s').
Lemma checked_grows : forall s s' k z, grows s s' -> checked s k z -> checked s' k z.
Proof. intros s s' k z G (u & I & R). exists u. auto. Qed.

Lemma tell_frame : forall e now h r s, links (tell_disconnection e now h r s) = links s /\ grows s (tell_disconnection e now h r s).
Proof. intros. unfold tell_disconnection. destruct (told e); split; auto; [|intros u; auto]. intros u. apply in_schedule. Qed.
Lemma disconnect_frame : forall e now h a b s, links (disconnect e now h a b s) = (match lookup (links s) h with Some _ => erase (links s) h | None => links s end) /\
  grows s (disconnect e now h a b s).
Proof.
  intros. unfold disconnect. destruct (lookup (links s) h) as [c|]; [|split; auto; intros u; auto]. cbv zeta.
  destruct (tell_frame e now h b (with_links (erase (links (transmit now (Frame (own c) (peer c) (Bye a)) s)) h) (transmit now (Frame (own c) (peer c) (Bye a)) s))) as (-> & G).
  split; auto. intros u I. apply G. now apply in_schedule.
Qed.
(** The links after the check of [h] at [now] *)
Lemma check_frame : forall e now h s, grows s (check_link e now h s) /\
  match lookup (links s) h with
  | None => links (check_link e now h s) = links s
  | Some c => if last_heard c + kTimeout <? now then links (check_link e now h s) = erase (links s) h
              else links (check_link e now h s) = links s /\ checked (check_link e now h s) h (last_heard c + kTimeout) 
  end.
Proof.
  intros. unfold check_link. destruct (lookup (links s) h) as [c|] eqn:L; [|split; auto; intros u; auto]. destruct (N.ltb_spec (last_heard c + kTimeout) now).
  - destruct (disconnect_frame e now h CONNECTION_TIMEOUT CONNECTION_TIMEOUT s) as (E & G). rewrite L in E. auto.
  - assert (W : forall x, whole_ms x <= x). { intros x. unfold whole_ms. rewrite N.mul_comm. apply N.mul_div_le. lia. }
    destruct (N.ltb_spec (last_heard c + kTimeout / 2) now) as [A|A].
    + split; [intros u I; now repeat apply in_schedule|]. split; auto. apply checked_new. pose proof (W (last_heard c + kTimeout - now)). lia.
    + split; [intros u I; now apply in_schedule|]. split; auto. apply checked_new. pose proof (W (last_heard c + kTimeout / 2 - now)). change kTimeout with 3000000 in *. change (3000000 / 2) with 1500000 in *. lia.
Qed.

(** A state all of whose links are watched, except for the tasks [l] still to be run *)
Definition watched (l : list task) (s : state) : Prop :=
  forall k c, lookup (links s) k = Some c -> checked s k (last_heard c + kTimeout) \/ exists t, In t l /\ todo t = CheckLink k.
Lemma lookup_erase_some : forall (C : Type) (m : table C) h k c, lookup (erase m h) k = Some c -> lookup m k = Some c.
Proof. intros C m h k c. rewrite lookup_erase. destruct (k =? h); [discriminate|auto]. Qed.
Lemma keys_erase_nodup : forall (C : Type) (m : table C) h, NoDup (keys m) -> NoDup (keys (erase m h)).
Proof. intros. unfold erase, keys. induction m as [|[k c] m IH]; cbn in *; [constructor|]. inversion_clear H as [|? ? N D]. destruct (negb _); cbn; auto.
  constructor; auto. intros I. apply N. apply in_map_iff in I as (x & E & J). apply filter_In in J as (J & _). apply in_map_iff. eauto. Qed.

Lemma run_watch : forall e now l s s' x, run_tasks e now l s = (s', x) -> watched l s -> NoDup (keys (links s)) ->
  NoDup (keys (links s')) /\ (forall k c, lookup (links s') k = Some c -> lookup (links s) k = Some c /\ checked s' k (last_heard c + kTimeout) /\
    (now <= last_heard c + kTimeout \/ checked s k (last_heard c + kTimeout))) /\
  (forall k c, lookup (links s) k = Some c -> lookup (links s') k = None -> last_heard c + kTimeout < now) /\ grows s s'.
Proof.
  intros e now. induction l as [|t l IH]; cbn [run_tasks]; intros s s' x H W D.
  - injection H as <- _. split; auto. split; [|split; [intros k c A B; congruence|intros u; auto]]. intros k c L. destruct (W k c L) as [C|(t & [] & _)]. auto.
  - destruct (todo t) as [o|h] eqn:TD.
    + destruct (run_tasks e now l s) as [s1 o1] eqn:E. injection H as <- _. apply (IH s s1 o1 E); auto.
      intros k c L. destruct (W k c L) as [C|(u & [<-|I] & U)]; auto; [congruence|eauto].
    + destruct (run_tasks e now l (check_link e now h s)) as [s1 o1] eqn:E. injection H as <- _. destruct (check_frame e now h s) as (G & F). set (s2 := check_link e now h s) in *.
      assert (W2 : watched l s2 /\ NoDup (keys (links s2)) /\ (forall k c, lookup (links s2) k = Some c -> lookup (links s) k = Some c /\ (k = h -> now <= last_heard c + kTimeout)) /\
        (forall k c, lookup (links s) k = Some c -> lookup (links s2) k = None -> last_heard c + kTimeout < now)).
      { destruct (lookup (links s) h) as [c0|] eqn:L0; [destruct (N.ltb_spec (last_heard c0 + kTimeout) now) as [X|X]|].
        - rewrite F. repeat split.
          + intros k c L. rewrite F in L. rewrite lookup_erase in L. destruct (N.eqb_spec k h); [discriminate|]. destruct (W k c L) as [C|(u & [<-|I] & U)]; [left; eapply checked_grows; eauto|congruence|eauto].
          + now apply keys_erase_nodup.
          + eapply lookup_erase_some; eassumption.
          + intros ->. rewrite lookup_erase, N.eqb_refl in H. discriminate.
          + intros k c L N. rewrite lookup_erase in N. destruct (N.eqb_spec k h) as [->|]; [|congruence]. congruence.
        - destruct F as (F & C0). rewrite F. repeat split; auto.
          + intros k c L. rewrite F in L. destruct (N.eq_dec k h) as [->|NE]; [left; congruence|]. destruct (W k c L) as [C|(u & [<-|I] & U)]; [left; eapply checked_grows; eauto|congruence|eauto].
          + intros ->. assert (c = c0) by congruence. now subst.
          + intros k c L N. congruence.
        - rewrite F. repeat split; auto.
          + intros k c L. rewrite F in L. destruct (W k c L) as [C|(u & [<-|I] & U)]; [left; eapply checked_grows; eauto|congruence|eauto].
          + intros ->. congruence.
          + intros k c L N. congruence. }
      destruct W2 as (W2 & D2 & K2 & E2). destruct (IH s2 s1 o1 E W2 D2) as (D3 & K3 & E3 & G3). split; auto. split; [|split].
      * intros k c L. destruct (K3 k c L) as (L2 & C3 & OR). destruct (K2 k c L2) as (L1 & Q). split; auto. split; auto.
        destruct (N.eq_dec k h) as [->|NE]; [left; auto|]. destruct OR as [O|O]; auto.
        destruct (W k c L1) as [C|(u & [<-|I] & U)]; auto; [congruence|]. left.
        (* the task of k is still in l: it is run by the induction *)
        assert (RUN : forall l s s' x, run_tasks e now l s = (s', x) -> (exists t, In t l /\ todo t = CheckLink k) -> lookup (links s') k = Some c -> (forall j d, lookup (links s') j = Some d -> lookup (links s) j = Some d) -> now <= last_heard c + kTimeout).
        { clear. induction l as [|t l IH]; cbn [run_tasks]; intros s s' x H (u & I & U) L MONO; [destruct I|].
          assert (M : forall l s s' x, run_tasks e now l s = (s', x) -> forall j d, lookup (links s') j = Some d -> lookup (links s) j = Some d).
          { clear. induction l as [|t l IH]; cbn [run_tasks]; intros s s' x H j d L; [injection H as <- _; auto|]. destruct (todo t) as [o|h].
            - destruct (run_tasks e now l s) as [s1 o1] eqn:E. injection H as <- _. eauto.
            - destruct (run_tasks e now l (check_link e now h s)) as [s1 o1] eqn:E. injection H as <- _. apply (IH _ _ _ E) in L. destruct (check_frame e now h s) as (_ & F).
              destruct (lookup (links s) h); [destruct (_ <? _)|]; [rewrite F in L; eapply lookup_erase_some; eassumption|destruct F as (F & _); now rewrite F in L|now rewrite F in L]. }
          destruct (todo t) as [o|h] eqn:TD.
          - destruct (run_tasks e now l s) as [s1 o1] eqn:E. injection H as <- _. destruct I as [<-|I]; [congruence|]. eapply IH; eauto.
          - destruct (run_tasks e now l (check_link e now h s)) as [s1 o1] eqn:E. injection H as <- _. destruct (N.eq_dec h k) as [->|NE].
            + pose proof (M _ _ _ _ E k c L) as L1. destruct (check_frame e now k s) as (_ & F). destruct (lookup (links s) k) as [c0|] eqn:L0; [|rewrite F in L1; congruence].
              destruct (N.ltb_spec (last_heard c0 + kTimeout) now); [rewrite F, lookup_erase, N.eqb_refl in L1; discriminate|]. destruct F as (F & _). rewrite F in L1. assert (c0 = c) by congruence. now subst.
            + destruct I as [<-|I]; [congruence|]. eapply IH; [exact E|eauto|auto|]. apply (M _ _ _ _ E). }
        eapply RUN; [exact E|eauto|exact L|]. intros j d J. now apply (K3 j d).
      * intros k c L N. destruct (lookup (links s2) k) as [c2|] eqn:L2; [|eapply E2; eassumption]. destruct (K2 k c2 L2) as (L1 & _). assert (c2 = c) by congruence. subst. eapply E3; eassumption.
      * intros u I. apply G3, G, I.
Qed.
