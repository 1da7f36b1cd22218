(** Isochronous streams: data paths of broadcast streams, the checks of a broadcast group,
    framed intervals, and the loss of a link. *)
From Verif Require Import Prelude Table Iso IsoSpec IsoProofs IsoMore IsoLife IsoSafe IsoParams IsoEnd IsoPath.
Open Scope N_scope.

(** ** Data paths of broadcast streams *)

Definition bstate (s : state) (x : N) : bool := match lookup (biss s) x with Some b => b_path b | None => false end.

Lemma deque_biss s s' out : deque s = Some (s', out) -> biss s' = biss s.
Proof. unfold deque. intros H. open H; injection H as <- <-; auto. Qed.
Lemma add_entries_biss g l : forall s s' hs, add_entries g l s = Some (s', hs) -> biss s' = biss s.
Proof.
  induction l as [|n l IH]; intros s s' hs H; cbn [add_entries] in H; [now injection H as <- <-|].
  open H; injection H as <- <-. rewrite (IH _ _ _ E0). unfold new_cis in E. open E; injection E as <- <-; auto.
Qed.
Lemma set_phase_biss p x s : biss (set_phase p x s) = biss s.
Proof. unfold set_phase. destruct (lookup (conns s) x); auto. Qed.

(** The streams change only with their group and their paths *)
Lemma run_biss ck e s o s' out : run ck e s o = Some (s', out) ->
  match o with
  | SetupPath x _ _ _ | RemovePath x _ _ => lookup (conns s) x = None \/ biss s' = biss s
  | CreateBig _ _ _ _ _ _ _ _ | TerminateBig _ _ => True
  | _ => biss s' = biss s
  end.
Proof.
  intros H. destruct o; cbn [run] in H; auto.
  - unfold set_cig, fail in H. open H; injection H as <- <-; auto.
    match goal with K : add_entries _ _ _ = Some _ |- _ => exact (add_entries_biss _ _ _ _ _ K) end.
  - unfold set_cig_test, fail in H. open H; injection H as <- <-; auto.
    match goal with K : add_entries _ _ _ = Some _ |- _ => exact (add_entries_biss _ _ _ _ _ K) end.
  - unfold remove_cig, fail in H. open H; injection H as <- <-; auto.
  - unfold create_cis, fail in H. open H; injection H as <- <-; auto.
    apply freeze_spec in E2 as (_ & _ & _ & _ & F5 & F6 & _). rewrite (deque_biss _ _ _ E3). cbn. auto.
  - unfold accept_cis, fail in H. open H; injection H as <- <-; auto.
  - unfold reject_cis, fail in H. open H; injection H as <- <-; auto.
  - unfold setup_path, fail in H. destruct (lookup (conns s) h); auto. right. open H; injection H as <- <-; auto.
  - unfold remove_path, fail in H. destruct (lookup (conns s) h); auto. right.
    destruct (if role_eqb _ _ then _ else _) in H. open H; injection H as <- <-; auto.
  - unfold disconnect, fail in H. destruct (lookup (conns s) h) as [d|] eqn:L; [|now injection H as <- <-].
    open H; injection H as <- <-; auto; destruct (role_eqb _ _); rewrite ?set_phase_biss; auto.
  - unfold add_link in H. open H. now injection H as <- <-.
  - unfold remove_link, remove_acl in H. open H. now injection H as <- <-.
  - destruct p.
    + unfold cis_req in H. open H. now injection H as <- <-.
    + unfold cis_rsp in H. open H; injection H as <- <-; auto.
      match goal with K : deque _ = Some _ |- _ => rewrite (deque_biss _ _ _ K) end. apply set_phase_biss.
    + unfold cis_ind in H. open H; injection H as <- <-; auto.
    + unfold cis_terminate in H. open H; injection H as <- <-; auto.
    + unfold reject_ext in H. open H; injection H as <- <-; auto.
      match goal with K : deque _ = Some _ |- _ => exact (deque_biss _ _ _ K) end.
    + discriminate.
Qed.

Lemma in_broadcast_spec ck P h s x : history ck P h s -> in_broadcast x h = has (biss s) x.
Proof.
  intros H. destruct (history_big _ _ _ _ H) as [(A1 & _) _ C D _]. rewrite has_lookup. unfold in_broadcast.
  destruct (existsb _ _) eqn:E.
  - apply existsb_exists in E as ([b [a hs]] & I & X). cbn [snd] in X. apply existsb_exists in X as (y & Y & Z). apply N.eqb_eq in Z. subst y.
    apply in_lookup_nodup in I; [|exact A1]. destruct (D _ _ _ I) as [_ D2]. destruct (D2 x Y) as (_ & i & -> & _). reflexivity.
  - destruct (lookup (biss s) x) as [i|] eqn:L; [|reflexivity]. destruct (C _ _ L) as (a & hs & K & J).
    assert (existsb (fun e => existsb (N.eqb x) (snd (snd e))) (broadcasts h) = true); [|congruence].
    apply existsb_exists. exists (b_big i, (a, hs)). split; [now apply lookup_pair|]. cbn [snd]. apply existsb_exists. exists x. split; [exact J|apply N.eqb_refl].
Qed.

Lemma new_bises_fresh b ids : forall m m' hs x i, NoDup (keys m) -> new_bises b ids m = Some (m', hs) -> lookup m' x = Some i ->
  lookup m x = Some i \/ (lookup m x = None /\ b_path i = false /\ b_role i = CENTRAL).
Proof.
  induction ids as [|j ids IH]; intros m m' hs x i N H L; cbn [new_bises] in H; [injection H as <- <-; auto|].
  open H. injection H as <- <-. apply new_bis_spec in E as [_ F]. destruct (IH _ _ _ x i (nodup_put _ _ _ N) E0 L) as [K|(K & Q)].
  - rewrite lookup_put in K. destruct (N.eqb_spec x a) as [->|]; [|auto]. injection K as <-. auto.
  - rewrite lookup_put in K. destruct (x =? a); [discriminate|auto].
Qed.

(** The streams of this model are those of groups the host created *)
Definition all_sources (s : state) : Prop := forall x i, lookup (biss s) x = Some i -> b_role i = CENTRAL.

Lemma history_bpath ck h s x : history ck orderly h s -> all_sources s /\ bpath x h = bstate s x.
Proof.
  intros H. induction H as [|h s e o s' u H IH Q E]; [split; [discriminate|reflexivity]|]. destruct IH as [S IH].
  assert (H' : history ck orderly (Moment e o u :: h) s') by (econstructor; eauto).
  pose proof (in_broadcast_spec _ _ _ _ x H') as BS. pose proof (history_big _ _ _ _ H) as [(A1 & A2 & A3) _ C D _].
  apply step_run in E as [E _]. pose proof (run_biss _ _ _ _ _ _ E) as F.
  cbn [bpath]. rewrite BS, has_lookup. unfold bstate. cbn [what].
  assert (SAME : biss s' = biss s -> all_sources s' /\ match lookup (biss s') x with Some _ => bpath x h | None => false end = match lookup (biss s') x with Some b => b_path b | None => false end).
  { intros EQ. unfold all_sources. rewrite EQ. split; [exact S|]. rewrite IH. unfold bstate. destruct (lookup (biss s) x); reflexivity. }
  assert (NC : forall y, lookup (conns s) y <> None -> lookup (biss s) y = None).
  { intros y K. destruct (lookup (biss s) y) as [i|] eqn:L; [|reflexivity]. destruct (C _ _ L) as (a & hs & K1 & K2).
    destruct (D _ _ _ K1) as [_ D2]. destruct (D2 y K2) as (R & _). pose proof (history_agrees _ _ _ _ (fun _ _ H => H) H) as [_ A].
    destruct (lookup (streams h) y) as [v|] eqn:LS; [pose proof (streams_range _ _ _ _ _ H LS); lia|]. rewrite A in LS. destruct (lookup (conns s) y); [discriminate|congruence]. }
  destruct o; cbn [run] in E; try (destruct (SAME F) as [X1 X2]; split; [exact X1|]; destruct (lookup (biss s') x); exact X2).
  - clear SAME. set (m := Moment e _ u) in *. destruct (lookup (conns s) h0) as [c|] eqn:L.
    + destruct F as [F|F]; [discriminate|]. unfold all_sources. rewrite F. split; [exact S|]. assert (K : lookup (biss s) h0 = None) by (apply NC; congruence).
      destruct (lookup (biss s) x) as [i|] eqn:LX; [|reflexivity]. destruct (N.eqb_spec h0 x) as [->|]; [congruence|]. rewrite andb_false_r. rewrite IH. unfold bstate. now rewrite LX.
    + clear F. unfold setup_path, fail in E. rewrite L in E. open E; injection E as <- <-; try (change (accepted m) with false; cbn [andb]; split; [exact S|rewrite IH; unfold bstate; now destruct (lookup (biss s) x)]).
      change (accepted m) with true. cbn [andb]. unfold all_sources. cbn [biss with_biss]. rewrite lookup_put. split.
      * intros y i. rewrite lookup_put. destruct (y =? h0); [intros [= <-]; cbn [b_role with_b_path]; eapply S; eassumption|apply S].
      * rewrite (N.eqb_sym h0 x). destruct (N.eqb_spec x h0) as [->|]; [reflexivity|]. rewrite IH. unfold bstate. now destruct (lookup (biss s) x).
  - clear SAME. set (m := Moment e _ u) in *. destruct (lookup (conns s) h0) as [c|] eqn:L.
    + destruct F as [F|F]; [discriminate|]. unfold all_sources. rewrite F. split; [exact S|]. assert (K : lookup (biss s) h0 = None) by (apply NC; congruence).
      destruct (lookup (biss s) x) as [i|] eqn:LX; [|reflexivity]. destruct (N.eqb_spec h0 x) as [->|]; [congruence|]. rewrite andb_false_r. cbn [andb]. rewrite IH. unfold bstate. now rewrite LX.
    + clear F. unfold remove_path, fail in E. rewrite L in E. open E; injection E as <- <-; try (change (accepted m) with false; cbn [andb]; split; [exact S|rewrite IH; unfold bstate; now destruct (lookup (biss s) x)]).
      change (accepted m) with true. cbn [andb]. unfold all_sources. cbn [biss with_biss]. rewrite lookup_put. split.
      * intros y i. rewrite lookup_put. destruct (y =? h0); [intros [= <-]; cbn [b_role with_b_path]; eapply S; eassumption|apply S].
      * rewrite (N.eqb_sym h0 x). destruct (N.eqb_spec x h0) as [->|]; cbn [andb].
        -- cbn [b_path with_b_path]. rewrite IH. unfold bstate. match goal with K : lookup (biss s) h0 = Some _ |- _ => rewrite K end. destruct input; cbn [negb]; now rewrite ?andb_false_r, ?andb_true_r.
        -- rewrite IH. unfold bstate. now destruct (lookup (biss s) x).
  - clear F. unfold create_big, fail in E. open E; injection E as <- <-; try (destruct (SAME eq_refl) as [X1 X2]; split; [exact X1|]; destruct (lookup (biss s) x); exact X2).
    unfold all_sources. cbn [biss with_biss with_bigs]. match goal with K : new_bises _ _ _ = Some _ |- _ => rename K into NB end. split.
    + intros y i L. destruct (new_bises_fresh _ _ _ _ _ _ _ A2 NB L) as [K|(_ & _ & K)]; [now apply (S y)|exact K].
    + destruct (lookup t x) as [i|] eqn:L; [|reflexivity]. rewrite IH. unfold bstate.
      destruct (new_bises_fresh _ _ _ _ _ _ _ A2 NB L) as [K|(K & K' & _)]; rewrite K; auto.
  - clear F. unfold terminate_big, fail in E. open E; injection E as <- <-; try (destruct (SAME eq_refl) as [X1 X2]; split; [exact X1|]; destruct (lookup (biss s) x); exact X2).
    unfold all_sources. cbn [biss with_biss with_bigs]. split.
    + intros y i. rewrite lookup_filter by exact A2. destruct (lookup (biss s) y) as [j|] eqn:L; [|discriminate]. destruct (negb (b_big (snd (y, j)) =? b)); [|discriminate]. intros [= <-]. now apply (S y).
    + rewrite lookup_filter by exact A2. rewrite IH. unfold bstate. destruct (lookup (biss s) x) as [j|]; [|reflexivity]. now destruct (negb (b_big (snd (x, j)) =? b)).
Qed.

(** A path is set up for input only, when there is none *)
Lemma bis_setup_exact ck h s e x d k l s' u :
  history ck orderly h s -> step ck e s (SetupPath x d k l) = Ok s' u -> in_broadcast x h = true ->
  (accepted (Moment e (SetupPath x d k l) u) = true <-> d = false /\ bpath x h = false /\ (l = [] \/ k <> 3)).
Proof.
  intros H E B. destruct (history_bpath _ _ _ x H) as [S ->]. rewrite (in_broadcast_spec _ _ _ _ _ H), has_lookup in B. unfold bstate.
  destruct (lookup (biss s) x) as [i|] eqn:LX; [|discriminate].
  assert (L : lookup (conns s) x = None).
  { pose proof (history_big _ _ _ _ H) as [_ _ C D _]. destruct (C _ _ LX) as (a & hs & K1 & K2). destruct (D _ _ _ K1) as [_ D2]. destruct (D2 x K2) as (R & _).
    pose proof (history_agrees _ _ _ _ (fun _ _ H => H) H) as [_ A]. destruct (lookup (conns s) x) eqn:Q; [|reflexivity].
    destruct (lookup (streams h) x) as [v|] eqn:LS; [pose proof (streams_range _ _ _ _ _ H LS); lia|]. rewrite A, Q in LS. discriminate. }
  apply step_run in E as [E _]. cbn [run] in E. unfold setup_path, fail in E. rewrite L, LX, (S x i LX) in E. cbn [role_eqb andb orb] in E.
  assert (X : negb (lenN l =? 0) && (k =? 3) = false <-> l = [] \/ k <> 3).
  { destruct l as [|y l]; cbn [negb andb]; [unfold lenN; cbn; tauto|].
    assert (lenN (y :: l) =? 0 = false) as -> by (apply N.eqb_neq; unfold lenN; cbn [length]; lia). cbn [negb andb]. rewrite N.eqb_neq. intuition discriminate. }
  rewrite <- X. destruct (negb (lenN l =? 0) && (k =? 3)); [injection E as <- <-; split; [discriminate|intros (_ & _ & ?); discriminate]|].
  destruct d; cbn [orb] in E; [injection E as <- <-; split; [discriminate|intros (? & _); discriminate]|].
  destruct (b_path i); injection E as <- <-; (split; [|reflexivity || (intros (_ & ? & _); discriminate)]); [discriminate|auto].
Qed.
Lemma bis_remove_exact ck h s e x i d s' u :
  history ck orderly h s -> step ck e s (RemovePath x i d) = Ok s' u -> in_broadcast x h = true ->
  accepted (Moment e (RemovePath x i d) u) = bpath x h && negb d.
Proof.
  intros H E B. destruct (history_bpath _ _ _ x H) as [S ->]. rewrite (in_broadcast_spec _ _ _ _ _ H), has_lookup in B. unfold bstate.
  destruct (lookup (biss s) x) as [b|] eqn:LX; [|discriminate].
  assert (L : lookup (conns s) x = None).
  { pose proof (history_big _ _ _ _ H) as [_ _ C D _]. destruct (C _ _ LX) as (a & hs & K1 & K2). destruct (D _ _ _ K1) as [_ D2]. destruct (D2 x K2) as (R & _).
    pose proof (history_agrees _ _ _ _ (fun _ _ H => H) H) as [_ A]. destruct (lookup (conns s) x) eqn:Q; [|reflexivity].
    destruct (lookup (streams h) x) as [v|] eqn:LS; [pose proof (streams_range _ _ _ _ _ H LS); lia|]. rewrite A, Q in LS. discriminate. }
  apply step_run in E as [E _]. cbn [run] in E. unfold remove_path, fail in E. rewrite L, LX in E.
  destruct (b_path b), d; cbn in E; injection E as <- <-; reflexivity.
Qed.

(** ** The checks of a broadcast group *)
Lemma big_valid ck P h s e b adv num iv sdu lat rtn phy s' out :
  history ck P h s -> step ck e s (CreateBig b adv num iv sdu lat rtn phy) = Ok s' out ->
  (exists b' x1 x2 x3 x4 hs, In (Event (BigCreated b' x1 x2 x3 x4 hs)) out) \/ accepted (Moment e (CreateBig b adv num iv sdu lat rtn phy) out) = true ->
  b <= 0xef /\ adv <= 0xef /\ 1 <= num <= 0x1f /\ 0xff <= iv <= 0xfffff /\ 1 <= sdu <= 0xfff /\ 5 <= lat <= 0xfa0 /\ rtn <= 0xf /\ phy <> 0.
Proof.
  intros H E IN. apply step_run in E as [E _]. cbn [run] in E. unfold create_big, fail, answer in E.
  open E; injection E as <- <-; cbn [In app] in IN; try (exfalso; destruct IN as [(? & ? & ? & ? & ? & ? & IN)|IN]; [cbn in IN; intuition discriminate|discriminate]).
  unfold within in *. repeat match goal with K : negb (_ && _) = false |- _ => apply negb_false_iff in K; rewrite andb_true_iff, !N.leb_le in K end.
  repeat match goal with K : (_ <? _) = false |- _ => apply N.ltb_ge in K end.
  match goal with K : (phy =? 0) = false |- _ => apply N.eqb_neq in K end. tauto.
Qed.
(** A group is refused without a periodic advertising set of its own *)
Lemma big_no_set ck P h s e b adv num iv sdu lat rtn phy s' out :
  history ck P h s -> step ck e s (CreateBig b adv num iv sdu lat rtn phy) = Ok s' out ->
  b <= 0xef -> adv <= 0xef -> lookup (broadcasts h) b = None ->
  periodic e adv <> Some true \/ (exists c ks, lookup (broadcasts h) c = Some (adv, ks)) ->
  out = [Event (Answer OP_CREATE_BIG UNKNOWN_ADVERTISING [])].
Proof.
  intros H E B1 B2 L PE. pose proof (history_big _ _ _ _ H) as [_ B _ _ _].
  apply step_run in E as [E _]. cbn [run] in E. unfold create_big, fail, answer in E.
  assert (0xef <? b = false) as K1 by (apply N.ltb_ge; exact B1). assert (0xef <? adv = false) as K2 by (apply N.ltb_ge; exact B2).
  rewrite K1, K2, has_lookup in E. pose proof (B b) as Bb. rewrite L in Bb. destruct (lookup (bigs s) b); [discriminate|].
  destruct (periodic e adv) as [[]|]; [|now injection E as <- <-|now injection E as <- <-].
  destruct PE as [PE|(c & ks & LC)]; [congruence|]. specialize (B c). rewrite LC in B. cbn in B. destruct (lookup (bigs s) c) as [y|] eqn:LB; [|discriminate]. injection B as B.
  assert (existsb (fun x => big_adv x =? adv) (values (bigs s)) = true) as X.
  { apply existsb_exists. exists y. split; [apply lookup_pair in LB; unfold values; apply in_map_iff; exists (c, y); auto|]. rewrite <- B. apply N.eqb_refl. }
  rewrite X in E. now injection E as <- <-.
Qed.

(** ** Framed groups *)
(** The interval of a framed group is the longer SDU interval, rounded up to 1.25 ms *)
Lemma framed_interval ck h s e o s' out a g c p :
  history ck orderly h s -> orderly s o -> step ck e s o = Ok s' out -> In (Send a (CisReq g c p)) out -> p_framed p = true ->
  exists o', group_of g h = Some o' /\
    match o' with
    | SetCig _ cp pc _ _ _ _ => cp < 2 ^ 24 -> pc < 2 ^ 24 ->
        cp <= 1250 * p_iso p /\ pc <= 1250 * p_iso p /\ (1250 * p_iso p < cp + 1250 \/ 1250 * p_iso p < pc + 1250)
    | _ => True
    end.
Proof.
  intros H O E IN FR. apply step_run in E as [E _].
  destruct (run_sends _ _ _ _ _ _ _ _ _ _ _ H O E IN) as (o' & n & x & q & G & D & F & C & ->).
  destruct (parameters_carry _ _ _ _ _ D C) as (A1 & _ & A3 & _). exists o'. split; [exact G|].
  destruct o'; cbn [describes] in D; try destruct D; auto. intros R1 R2.
  destruct A1 as (_ & _ & A1 & _). rewrite FR in A1. subst fr. cbn [p_iso with_cig_delay with_cis_delay]. rewrite A3.
  match goal with K : context [iso_interval_of] |- _ => unfold iso_interval_of in K; rename K into D' end. destruct D' as (_ & _ & _ & _ & D'). injection D' as <-. unfold div_ceil. clear - R1 R2.
  rewrite N.mod_small; [|lia]. lia.
Qed.

(** ** The loss of a link *)
(** Every stream of the link is reported: as disconnected when it was established, as not
    established when it was asked for *)
Lemma loss_reported ck h s e a r s' out : history ck orderly h s -> orderly s (RemoveLink a r) -> step ck e s (RemoveLink a r) = Ok s' out ->
  exists r', (declared_error r = true -> r' = r) /\
  (forall x c, lookup (conns s) x = Some c -> c_acl c = Some a ->
    (up x h = true -> In (Event (Disconnected x r')) out) /\
    (c_phase c = PendingRsp \/ c_phase c = PendingInd -> In (Event (Established r' x no_report)) out)) /\
  (forall q, In q (queue s) -> r_acl q = a -> In (Event (Established r' (r_handle q) no_report)) out) /\
  (forall x, up x (Moment e (RemoveLink a r) out :: h) = true -> up x h = true /\ forall c, lookup (conns s) x = Some c -> c_acl c <> Some a).
Proof.
  intros H O E. pose proof (history_inv _ _ _ _ (fun _ _ H => H) H) as I.
  assert (UP : forall x, up x h = conn s x) by (intros x; exact (history_up _ _ _ _ x (fun _ _ H => H) H)).
  assert (UP' : forall x, up x (Moment e (RemoveLink a r) out :: h) = conn s' x).
  { intros x. apply (history_up ck orderly _ _ x (fun _ _ H => H)). econstructor; eauto. } apply step_run in E as [E _]. cbn [run] in E. unfold remove_link, remove_acl in E. open E. injection E as <- <-.
  exists (if declared_error r then r else REMOTE_USER_TERMINATED). split; [intros ->; reflexivity|]. split; [|split].
  - intros x c L A.
    assert (HX : c_handle c = x) by apply (inv_cis _ I _ _ L).
    assert (V : In c (values (conns s))) by (apply lookup_pair in L; unfold values; apply in_map_iff; exists (x, c); auto).
    assert (Q : optN_eqb (c_acl c) a = true) by (rewrite A; cbn; apply N.eqb_refl).
    split; [intros U|intros P]; apply in_or_app; left; apply in_flat_map; exists c; (split; [exact V|]); unfold lost; rewrite Q.
    + rewrite UP in U. unfold conn in U. rewrite L in U. destruct (c_phase c); try discriminate. rewrite HX. now left.
    + rewrite HX. destruct P as [-> | ->]; now left.
  - intros q J A. apply in_or_app. right. apply in_flat_map. exists q. split; [now apply in_rev in J|]. rewrite A, N.eqb_refl. now left.
  - intros x U. rewrite UP' in U. rewrite UP. unfold conn in *. cbn [conns with_queue with_conns with_acls] in U.
    rewrite filter_conns_map, lookup_filter in U by apply I. destruct (lookup (conns s) x) as [c|]; [|discriminate]. cbn [snd] in U.
    destruct (role_eqb (c_role c) CENTRAL || negb (optN_eqb (c_acl c) a)); [|discriminate]. cbn [option_map] in U. unfold unlink in U.
    destruct (optN_eqb (c_acl c) a) eqn:Q; [discriminate|]. split; [exact U|]. intros d [= <-] A. apply optN_eqb_eq in A. congruence.
Qed.
