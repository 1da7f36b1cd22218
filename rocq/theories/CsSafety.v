(** Proofs about channel sounding: histories, aborts, security and agreement. *)
From Verif Require Import Prelude Table Cs CsSpec CsProofs CsMore.
Open Scope N_scope.
Ltac Zify.zify_post_hook ::= Z.div_mod_to_equations.

(** * What the controllers have been told *)
Ltac fields := cbn [configs remote role_enable secured keyed encrypted host_support local central fae last_map remote_feature
  with_role_enable with_fae with_remote with_configs with_keyed with_secured with_last_map with_encrypted] in *.
Lemma command_told x tm e c e' st ps ev g : do_command tm e c = (e', st, ps, ev) ->
  remote e' = told_capabilities x (Entry (Host x tm c) g st ps ev) (remote e) /\ role_enable e' = told_roles x (Entry (Host x tm c) g st ps ev) (role_enable e).
Proof.
  intros H. unfold told_capabilities, told_roles. cbn [what status_of got]. rewrite side_refl. cbn [andb].
  destruct c; command_cases H; fields; cbn [N.eqb SUCCESS]; (split; reflexivity || (try rewrite Heqo; reflexivity)).
Qed.
Lemma receive_told x m e q e' ps ev st : do_receive m e q = Some (e', ps, ev) ->
  remote e' = told_capabilities x (Entry (Deliver x m) (Some q) st ps ev) (remote e) /\ role_enable e' = told_roles x (Entry (Deliver x m) (Some q) st ps ev) (role_enable e).
Proof.
  intros H. unfold told_capabilities, told_roles. cbn [what status_of got sent]. rewrite side_refl. cbn [andb].
  destruct q; receive_cases H; fields; split; try reflexivity.
  all: unfold nonzero in *; try match goal with H : negb _ = _ |- _ => rewrite ?negb_true_iff, ?negb_false_iff in H; rewrite H end; reflexivity.
Qed.
Lemma told_other x y e : side_eqb x y = false -> (exists tm c, what e = Host y tm c) \/ (exists m, what e = Deliver y m) \/ what e = Encrypt ->
  (forall r, told_capabilities x e r = r) /\ (forall r, told_roles x e r = r).
Proof.
  intros S K. unfold told_capabilities, told_roles. destruct K as [(tm & c & ->)|[(m & ->)| -> ]].
  - split; intros r; destruct c; rewrite ?S; reflexivity.
  - split; intros r; [|reflexivity]. destruct (got e) as [[]|]; rewrite ?S; reflexivity.
  - split; reflexivity.
Qed.
Lemma told_nothing x m st ps ev : (forall r, told_capabilities x (Entry (Deliver x m) None st ps ev) r = r) /\ (forall r, told_roles x (Entry (Deliver x m) None st ps ev) r = r).
Proof. split; reflexivity. Qed.
Lemma step_told x s o s' st ps ev : step s o = Some (s', st, ps, ev) ->
  remote (end_of x s') = told_capabilities x (Entry o (delivered s o) st ps ev) (remote (end_of x s)) /\
  role_enable (end_of x s') = told_roles x (Entry o (delivered s o) st ps ev) (role_enable (end_of x s)).
Proof.
  intros H. step_cases H; unfold delivered; rewrite ?T; cbn [hd_error].
  - destruct x; [exact (command_told Central _ _ _ _ _ _ _ None D)|]. destruct (told_other Peripheral Central (Entry (Host Central tm c) None st' ps' ev') eq_refl) as [-> ->]; [cbn; eauto|split; reflexivity].
  - destruct x; [|exact (command_told Peripheral _ _ _ _ _ _ _ None D)]. destruct (told_other Central Peripheral (Entry (Host Peripheral tm c) None st' ps' ev') eq_refl) as [-> ->]; [cbn; eauto|split; reflexivity].
  - split; reflexivity.
  - destruct x; [exact (receive_told Central _ _ _ _ _ _ _ D)|]. destruct (told_other Peripheral Central (Entry (Deliver Central m) (Some q) SUCCESS ps' ev') eq_refl) as [-> ->]; [cbn; eauto|split; reflexivity].
  - split; reflexivity.
  - destruct x; [|exact (receive_told Peripheral _ _ _ _ _ _ _ D)]. destruct (told_other Central Peripheral (Entry (Deliver Peripheral m) (Some q) SUCCESS ps' ev') eq_refl) as [-> ->]; [cbn; eauto|split; reflexivity].
  - destruct x; split; reflexivity.
Qed.
Lemma history_told c p h s x : history (connected c p) h s -> remote (end_of x s) = capabilities_of x h /\ role_enable (end_of x s) = roles_of x h.
Proof.
  induction 1 as [|h s o s' st ps ev H [A B] S]; [destruct x; split; reflexivity|]. cbn [capabilities_of roles_of]. rewrite <- A, <- B. now apply step_told.
Qed.

(** What never changes *)
Lemma command_constant tm e c e' st ps ev : do_command tm e c = (e', st, ps, ev) ->
  central e' = central e /\ host_support e' = host_support e /\ local e' = local e /\ encrypted e' = encrypted e.
Proof. intros H. destruct c; command_cases H; fields; auto. Qed.
Lemma receive_constant m e q e' ps ev : do_receive m e q = Some (e', ps, ev) ->
  central e' = central e /\ host_support e' = host_support e /\ local e' = local e /\ encrypted e' = encrypted e.
Proof. intros H. destruct q; receive_cases H; fields; auto. Qed.
Lemma step_constant x s o s' st ps ev : step s o = Some (s', st, ps, ev) ->
  central (end_of x s') = central (end_of x s) /\ host_support (end_of x s') = host_support (end_of x s) /\ local (end_of x s') = local (end_of x s).
Proof.
  intros H. step_cases H; destruct x; cbn [end_of cen per]; fields; auto.
  all: first [destruct (command_constant _ _ _ _ _ _ _ D) as (? & ? & ? & ?)|destruct (receive_constant _ _ _ _ _ _ D) as (? & ? & ? & ?)]; auto.
Qed.
Definition settings_of (x : side) (c p : settings) : settings := match x with Central => c | Peripheral => p end.
Lemma history_constant c p h s x : history (connected c p) h s ->
  central (end_of x s) = side_eqb x Central /\ host_support (end_of x s) = s_support (settings_of x c p) /\ local (end_of x s) = s_caps (settings_of x c p).
Proof.
  induction 1 as [|h s o s' st ps ev H (A & B & C) S]; [destruct x; repeat split; reflexivity|].
  destruct (step_constant x _ _ _ _ _ _ S) as (-> & -> & ->). auto.
Qed.

(** Exactly when LE CS Create Config is accepted *)
Lemma history_create c p h s x tm id context b reserved s' st ps ev : history (connected c p) h s -> role b <= 1 ->
  step s (Host x tm (CreateConfig id context b reserved)) = Some (s', st, ps, ev) ->
  st = SUCCESS <->
  exists r, capabilities_of x h = Some r /\ N.testbit (roles_of x h) (role b) = true /\ id <= 3 /\ context <= 1 /\ reserved = 0 /\ valid_body b /\
            supports (s_caps (settings_of x c p)) (role b) id b /\ supports r (1 - role b) id b.
Proof.
  intros H R S. destruct (history_told _ _ _ _ x H) as [<- <-]. destruct (history_constant _ _ _ _ x H) as (_ & _ & <-).
  unfold step in S. destruct x; cbn [end_of].
  - destruct (do_command tm (cen s) _) as [[[e' st'] ps'] ev'] eqn:D. injection S as <- <- <- <-. exact (create_exact _ _ _ _ _ _ _ _ _ _ R D).
  - destruct (do_command tm (per s) _) as [[[e' st'] ps'] ev'] eqn:D. injection S as <- <- <- <-. exact (create_exact _ _ _ _ _ _ _ _ _ _ R D).
Qed.

(** * Valid configurations everywhere *)
Local Opaque valid_map nearly_valid_map.
Definition valid_pdu (q : pdu) : Prop :=
  match q with
  | ConfigReq _ action b => action = 1 /\ valid_body b \/ action = 0
  | MapInd m => valid_map m
  | _ => True
  end.
Definition all_valid (t : table config) : Prop := forall id k, lookup t id = Some k -> valid_body (the_body k).
Lemma valid_mirrored b : valid_body b -> valid_body (mirrored b). Proof. intros []. now constructor. Qed.
Lemma valid_set_map m k : valid_map m -> valid_body (the_body k) -> valid_body (the_body (set_map m k)).
Proof. intros M []. constructor; [exact (valid_nearly m M)|..]; assumption. Qed.
Lemma all_put t id k : all_valid t -> valid_body (the_body k) -> all_valid (put t id k).
Proof. intros A V i q. rewrite lookup_put. destruct (i =? id); [now intros [= <-]|apply A]. Qed.
Lemma all_erase t id : all_valid t -> all_valid (erase t id).
Proof. intros A i q. rewrite lookup_erase. destruct (i =? id); [discriminate|apply A]. Qed.
Lemma all_map t f : all_valid t -> (forall i k, valid_body (the_body k) -> valid_body (the_body (f (i, k)))) -> all_valid (map (fun x => (fst x, f x)) t).
Proof. intros A F i q. rewrite lookup_map. destruct (lookup t i) as [k|] eqn:L; [|discriminate]. intros [= <-]. apply F. exact (A _ _ L). Qed.
Lemma create_valid tm e id context b reserved e' ps ev : do_command tm e (CreateConfig id context b reserved) = (e', SUCCESS, ps, ev) -> valid_body b.
Proof.
  intros H. unfold do_command in H. destruct (remote e) as [r|]; [|discriminate H]. crack H; try discriminate H.
  all: apply negb_false_iff in Heqb1, Heqb2; unfold capable in Heqb2; apply andb_true_iff in Heqb2 as [_ S]; apply N.eqb_eq in S;
       apply (body_ok_exact _ _ _ _ S) in Heqb1; tauto.
Qed.
Lemma command_valid tm e c e' st ps ev : do_command tm e c = (e', st, ps, ev) -> all_valid (configs e) -> all_valid (configs e') /\ Forall valid_pdu ps.
Proof.
  intros H A. destruct c.
  6: { assert (V : st = SUCCESS -> valid_body b) by (intros ->; exact (create_valid _ _ _ _ _ _ _ _ _ H)).
       command_cases H; fields; (split; [|first [exact (Forall_nil _)|apply Forall_cons; [left; split; [reflexivity|exact (V eq_refl)]|exact (Forall_nil _)]]]); try exact A.
       all: apply all_put; [exact A|exact (V eq_refl)]. }
  all: command_cases H; fields; (split; [|first [exact (Forall_nil _)|apply Forall_cons; [try exact I; try (right; reflexivity)|exact (Forall_nil _)]]]); try assumption; try match goal with |- all_valid (erase _ _) => apply all_erase; exact A end.
  all: try match goal with |- all_valid (put _ _ _) => apply all_put; [exact A|cbn [the_body]; eapply A; eassumption] end.
  all: try match goal with Q : configs ?y = _ |- _ => rewrite Q; assumption end.
  all: rewrite ?negb_false_iff in *.
  - apply (all_map _ (fun x => set_map map (snd x))); [exact A|]. intros i k V. apply valid_set_map; [|exact V]. apply classification_ok. assumption.
  - apply classification_ok. assumption.
Qed.
Lemma receive_valid m e q e' ps ev : do_receive m e q = Some (e', ps, ev) -> valid_pdu q -> all_valid (configs e) -> all_valid (configs e') /\ Forall valid_pdu ps.
Proof.
  intros H V A. destruct q; receive_cases H; fields; (split; [|first [exact (Forall_nil _)|apply Forall_cons; [try exact I; try (right; reflexivity)|exact (Forall_nil _)]]]); try assumption; try match goal with |- all_valid (erase _ _) => apply all_erase; exact A end.
  - apply all_put; [exact A|]. apply valid_mirrored. cbn in V. destruct V as [[_ V]|V]; [exact V|]. subst. discriminate.
  - apply (all_map _ (fun x => if enabled (snd x) then set_map map (snd x) else snd x)); [exact A|]. intros i k W. cbn [snd]. destruct (enabled k); [now apply valid_set_map|exact W].
Qed.
Definition valid_system (s : system) : Prop := (forall x, all_valid (configs (end_of x s))) /\ Forall valid_pdu (to_per s) /\ Forall valid_pdu (to_cen s).
Lemma step_valid s o s' st ps ev : step s o = Some (s', st, ps, ev) -> valid_system s -> valid_system s' /\ Forall valid_pdu ps.
Proof.
  intros H (A & P & C). assert (AC := A Central). assert (AP := A Peripheral). cbn [end_of] in AC, AP.
  step_cases H; unfold valid_system; cbn [cen per to_per to_cen end_of].
  - destruct (command_valid _ _ _ _ _ _ _ D AC). split; [|assumption]. split; [intros []; assumption|]. split; [apply Forall_app; auto|assumption].
  - destruct (command_valid _ _ _ _ _ _ _ D AP). split; [|assumption]. split; [intros []; assumption|]. split; [assumption|apply Forall_app; auto].
  - split; [|constructor]. split; [intros []; assumption|]. rewrite T. auto.
  - inversion C; subst. destruct (receive_valid _ _ _ _ _ _ D H1 AC). split; [|assumption]. split; [intros []; assumption|]. split; [apply Forall_app; auto|assumption].
  - split; [|constructor]. split; [intros []; assumption|]. rewrite T. auto.
  - inversion P; subst. destruct (receive_valid _ _ _ _ _ _ D H1 AP). split; [|assumption]. split; [intros []; assumption|]. split; [assumption|apply Forall_app; auto].
  - split; [|constructor]. split; [intros []; assumption|]. auto.
Qed.
Lemma history_valid c p h s : history (connected c p) h s -> valid_system s /\ Forall (fun e => Forall valid_pdu (sent e)) h.
Proof.
  induction 1 as [|h s o s' st ps ev H [A B] S].
  - split; [|constructor]. split; [intros [] id k; discriminate|split; constructor].
  - destruct (step_valid _ _ _ _ _ _ S A). split; [assumption|]. constructor; assumption.
Qed.

(** * Aborts *)
Definition starts (q : pdu) (id : N) : Prop := (exists len, q = CsReq id len) \/ (exists st len, q = CsRsp st id len) \/ (exists st len, q = CsInd st id len).
Lemma event_abort m e id : procedure_event m e id = None -> m = true /\ standing_in (configs e) id = Created.
Proof. intros H. unfold procedure_event, standing_in in *. destruct m; [|discriminate]. cbn [negb] in H. crack H. auto. Qed.
Lemma receive_abort m e q : do_receive m e q = None -> m = true /\ exists id, starts q id /\ standing_in (configs e) id = Created.
Proof.
  intros H. unfold starts.
  destruct q; unfold do_receive in H; cbv zeta in H; crack H; try discriminate H.
  all: match goal with E : procedure_event _ _ _ = None |- _ => apply event_abort in E as [-> S] end; split; [reflexivity|]; exists id; split; [eauto 6|exact S].
Qed.
Lemma history_abort c p h s o : history (connected c p) h s -> step s o = None ->
  exists x id q, o = Deliver x true /\ delivered s o = Some q /\ starts q id /\ standing_of x id h = Created.
Proof.
  intros H S. unfold step in S. destruct o as [[] tm c0|[] m|]; try discriminate S.
  - destruct (do_command tm (cen s) c0) as [[[? ?] ?] ?]. discriminate S.
  - destruct (do_command tm (per s) c0) as [[[? ?] ?] ?]. discriminate S.
  - destruct (to_cen s) as [|q rest] eqn:T; [discriminate|]. destruct (do_receive m (cen s) q) as [[[? ?] ?]|] eqn:D; [discriminate|].
    apply receive_abort in D as (-> & id & Q & N). exists Central, id, q. unfold delivered. rewrite T, (history_standing _ _ _ _ Central id H). auto.
  - destruct (to_per s) as [|q rest] eqn:T; [discriminate|]. destruct (do_receive m (per s) q) as [[[? ?] ?]|] eqn:D; [discriminate|].
    apply receive_abort in D as (-> & id & Q & N). exists Peripheral, id, q. unfold delivered. rewrite T, (history_standing _ _ _ _ Peripheral id H). auto.
Qed.

(** * Security *)
Definition sec_inv (h : list entry) (s : system) : Prop :=
  encrypted (cen s) = encrypted (per s) /\
  (encrypted (cen s) = true -> Exists is_encrypt h) /\
  (keyed (cen s) = true -> encrypted (cen s) = true /\ exists e, In e h /\ exists tm, what e = Host Central tm SecurityEnable /\ status_of e = SUCCESS) /\
  (keyed (per s) = true -> encrypted (per s) = true /\ Exists (security_reported Peripheral) h) /\
  (In (SecRsp SUCCESS) (to_cen s) -> Exists (security_reported Peripheral) h /\ encrypted (per s) = true) /\
  ~ In SecReq (to_cen s) /\ (forall st, ~ In (SecRsp st) (to_per s)).
Lemma exists_cons {A} (P : A -> Prop) x l : Exists P l -> Exists P (x :: l). Proof. apply Exists_cons_tl. Qed.
Definition asked (h : list entry) : Prop := exists e, In e h /\ exists tm, what e = Host Central tm SecurityEnable /\ status_of e = SUCCESS.
Lemma asked_cons e h : asked h -> asked (e :: h). Proof. intros (a & I & X). exists a. split; [now right|exact X]. Qed.

Lemma command_security tm e c e' st ps ev : do_command tm e c = (e', st, ps, ev) ->
  secured e' = secured e /\ (forall x, In (SecRsp x) ps -> False) /\ (In SecReq ps -> central e = true) /\
  (keyed e' = true -> keyed e = true \/ (central e = true /\ encrypted e = true /\ c = SecurityEnable /\ st = SUCCESS)).
Proof.
  intros H. destruct c; command_cases H; fields; rewrite ?negb_false_iff in *; repeat split; try (cbn; intuition discriminate); auto 8.
Qed.
Lemma receive_security m e q e' ps ev : do_receive m e q = Some (e', ps, ev) -> (central e = true -> q <> SecReq) ->
  (In SecReq ps -> False) /\ (forall x, In (SecRsp x) ps -> central e = false) /\
  (In (SecRsp SUCCESS) ps -> encrypted e = true /\ In (SecurityComplete SUCCESS) ev) /\
  (keyed e' = true -> keyed e = true \/ (encrypted e = true /\ In (SecurityComplete SUCCESS) ev /\ central e = false)) /\
  (In (SecurityComplete SUCCESS) ev -> (q = SecReq /\ encrypted e = true) \/ q = SecRsp SUCCESS).
Proof.
  intros H C. destruct q; receive_cases H; fields; rewrite ?negb_false_iff in *.
  all: try (match goal with E : procedure_event _ _ _ = Some ?l |- _ => unfold procedure_event in E; crack E; injection E as <- end).
  all: try (assert (K : central e = false) by (destruct (central e); [now destruct (C eq_refl)|reflexivity])).
  all: split; [|split; [|split; [|split]]]; cbn [In].
  all: try (intuition (try discriminate; try congruence); fail).
  all: intros [E|[]]; injection E as ->; first [discriminate|right; reflexivity].
Qed.
Lemma sec_step sc sp h s o s' st ps ev : history (connected sc sp) h s -> sec_inv h s -> step s o = Some (s', st, ps, ev) -> sec_inv (Entry o (delivered s o) st ps ev :: h) s'.
Proof.
  intros Hh (E & X & KC & KP & R & NQ & NR) S.
  destruct (history_constant _ _ _ _ Central Hh) as (CC & _). destruct (history_constant _ _ _ _ Peripheral Hh) as (CP & _). cbn [end_of side_eqb] in CC, CP.
  fold (asked h) in KC. unfold sec_inv. fold (asked (Entry o (delivered s o) st ps ev :: h)).
  step_cases S; unfold delivered; rewrite ?T; cbn [hd_error cen per to_per to_cen] in *.
  - destruct (command_security _ _ _ _ _ _ _ D) as (_ & A2 & A3 & A4). destruct (command_constant _ _ _ _ _ _ _ D) as (_ & _ & _ & ->).
    split; [exact E|]. split; [intros Q; apply exists_cons, X, Q|].
    split. { intros Q. destruct (A4 Q) as [Q'|(_ & Q' & -> & ->)]; [destruct (KC Q'); split; [assumption|now apply asked_cons]|]. split; [exact Q'|]. eexists. split; [left; reflexivity|]. exists tm. now split. }
    split; [intros Q; destruct (KP Q); split; [assumption|now apply exists_cons]|].
    split; [intros Q; destruct (R Q); split; [now apply exists_cons|assumption]|].
    split; [exact NQ|]. intros z Q. apply in_app_or in Q as [Q|Q]; [exact (NR _ Q)|exact (A2 _ Q)].
  - destruct (command_security _ _ _ _ _ _ _ D) as (_ & A2 & A3 & A4). destruct (command_constant _ _ _ _ _ _ _ D) as (_ & _ & _ & EE). rewrite EE.
    split; [exact E|]. split; [intros Q; apply exists_cons, X, Q|].
    split; [intros Q; destruct (KC Q); split; [assumption|now apply asked_cons]|].
    split. { intros Q. destruct (A4 Q) as [Q'|(Q' & _)]; [|congruence]. destruct (KP Q'); split; [assumption|now apply exists_cons]. }
    split. { intros Q. apply in_app_or in Q as [Q|Q]; [|destruct (A2 _ Q)]. destruct (R Q); split; [now apply exists_cons|assumption]. }
    split; [|exact NR]. intros Q. apply in_app_or in Q as [Q|Q]; [exact (NQ Q)|]. specialize (A3 Q). congruence.
  - rewrite ?T in *. split; [exact E|]. split; [intros Q; apply exists_cons, X, Q|].
    split; [intros Q; destruct (KC Q); split; [assumption|now apply asked_cons]|].
    split; [intros Q; destruct (KP Q); split; [assumption|now apply exists_cons]|].
    split; [intros []|]. split; [intros []|exact NR].
  - rewrite ?T in *. assert (NS : central (cen s) = true -> q <> SecReq) by (intros _ ->; apply NQ; now left).
    destruct (receive_security _ _ _ _ _ _ D NS) as (A1 & A2 & A3 & A4 & A5). destruct (receive_constant _ _ _ _ _ _ D) as (_ & _ & _ & ->).
    split; [exact E|]. split; [intros Q; apply exists_cons, X, Q|].
    split. { intros Q. destruct (A4 Q) as [Q'|(_ & _ & Q')]; [|congruence]. destruct (KC Q'); split; [assumption|now apply asked_cons]. }
    split; [intros Q; destruct (KP Q); split; [assumption|now apply exists_cons]|].
    split; [intros Q; destruct (R (or_intror Q)); split; [now apply exists_cons|assumption]|].
    split; [intros Q; apply NQ; now right|]. intros z Q. apply in_app_or in Q as [Q|Q]; [exact (NR _ Q)|]. specialize (A2 _ Q). congruence.
  - rewrite ?T in *. split; [exact E|]. split; [intros Q; apply exists_cons, X, Q|].
    split; [intros Q; destruct (KC Q); split; [assumption|now apply asked_cons]|].
    split; [intros Q; destruct (KP Q); split; [assumption|now apply exists_cons]|].
    split; [intros Q; destruct (R Q); split; [now apply exists_cons|assumption]|]. split; [exact NQ|intros z []].
  - rewrite ?T in *. assert (NS : central (per s) = true -> q <> SecReq) by congruence.
    destruct (receive_security _ _ _ _ _ _ D NS) as (A1 & A2 & A3 & A4 & A5). destruct (receive_constant _ _ _ _ _ _ D) as (_ & _ & _ & EE). rewrite EE.
    assert (SR : In (SecurityComplete SUCCESS) ev' -> Exists (security_reported Peripheral) (Entry (Deliver Peripheral m) (Some q) SUCCESS ps' ev' :: h)) by (intros Q; apply Exists_cons_hd; exists m; now split).
    split; [exact E|]. split; [intros Q; apply exists_cons, X, Q|].
    split; [intros Q; destruct (KC Q); split; [assumption|now apply asked_cons]|].
    split. { intros Q. destruct (A4 Q) as [Q'|(Q' & Q2 & _)]; [destruct (KP Q'); split; [assumption|now apply exists_cons]|]. split; [exact Q'|exact (SR Q2)]. }
    split. { intros Q. apply in_app_or in Q as [Q|Q]; [destruct (R Q); split; [now apply exists_cons|assumption]|]. destruct (A3 Q). split; [exact (SR H0)|assumption]. }
    split; [intros Q; apply in_app_or in Q as [Q|Q]; [exact (NQ Q)|exact (A1 Q)]|]. intros z Q. exact (NR z (or_intror Q)).
  - fields. split; [reflexivity|]. split; [intros _; apply Exists_cons_hd; reflexivity|].
    split; [intros Q; destruct (KC Q); split; [reflexivity|now apply asked_cons]|].
    split; [intros Q; destruct (KP Q); split; [reflexivity|now apply exists_cons]|].
    split; [intros Q; destruct (R Q); split; [now apply exists_cons|reflexivity]|]. split; assumption.
Qed.
Lemma history_security c p h s : history (connected c p) h s -> sec_inv h s.
Proof.
  induction 1 as [|h s o s' st ps ev H IH S]; [|exact (sec_step _ _ _ _ _ _ _ _ _ H IH S)].
  unfold sec_inv, connected, fresh. fields. cbn. repeat split; try (intros; discriminate); tauto.
Qed.

(** Success is reported only on an encrypted link, and to the central only after the peripheral *)
Lemma reported_security c p h s x o s' st ps ev : history (connected c p) h s -> step s o = Some (s', st, ps, ev) ->
  security_reported x (Entry o (delivered s o) st ps ev) ->
  Exists is_encrypt h /\ (x = Central -> Exists (security_reported Peripheral) h).
Proof.
  intros H S (m & W & I). cbn [what events] in W, I. subst o. assert (J := history_security _ _ _ _ H). destruct J as (E & X & KC & KP & R & NQ & NR).
  destruct (history_constant _ _ _ _ Central H) as (CC & _). destruct (history_constant _ _ _ _ Peripheral H) as (CP & _). cbn [end_of side_eqb] in CC, CP.
  unfold step in S. destruct x.
  - destruct (to_cen s) as [|q rest] eqn:T; [injection S as <- <- <- <-; destruct I|]. destruct (do_receive m (cen s) q) as [[[e' ps'] ev']|] eqn:D; [|discriminate]. injection S as <- <- <- <-.
    assert (NS : central (cen s) = true -> q <> SecReq) by (intros _ ->; apply NQ; now left).
    destruct (receive_security _ _ _ _ _ _ D NS) as (A1 & A2 & A3 & A4 & A5). destruct (A5 I) as [[-> _] | ->]; [now destruct NS|].
    destruct (R (or_introl eq_refl)) as [R1 R2]. rewrite <- E in R2. auto.
  - destruct (to_per s) as [|q rest] eqn:T; [injection S as <- <- <- <-; destruct I|]. destruct (do_receive m (per s) q) as [[[e' ps'] ev']|] eqn:D; [|discriminate]. injection S as <- <- <- <-.
    assert (NS : central (per s) = true -> q <> SecReq) by congruence.
    destruct (receive_security _ _ _ _ _ _ D NS) as (A1 & A2 & A3 & A4 & A5). destruct (A5 I) as [[-> K] | ->]; [|destruct (NR SUCCESS); now left].
    rewrite <- E in K. split; [auto|discriminate].
Qed.

(** A start asked for by the other end is accepted only on an encrypted link, by the
    peripheral only after the security procedure, by the central only after its host asked
    for that procedure *)
Lemma accepted_start c p h s x id o s' st ps ev : history (connected c p) h s -> step s o = Some (s', st, ps, ev) ->
  start_accepted x id (Entry o (delivered s o) st ps ev) ->
  Exists is_encrypt h /\ standing_of x id h <> Absent /\
  match x with Peripheral => Exists (security_reported Peripheral) h | Central => asked h end.
Proof.
  intros H S (m & len & W & G & I). cbn [what got sent] in W, G, I. subst o. assert (J := history_security _ _ _ _ H). destruct J as (E & X & KC & KP & R & NQ & NR).
  fold (asked h) in KC. rewrite (history_standing _ _ _ _ x id H). unfold standing_in.
  unfold step in S. unfold delivered in G. destruct x; cbn [end_of].
  - destruct (to_cen s) as [|q rest] eqn:T; [discriminate|]. cbn in G. injection G as ->. destruct (do_receive m (cen s) (CsReq id len)) as [[[e' ps'] ev']|] eqn:D; [|discriminate]. injection S as <- <- <- <-.
    receive_cases D; cbn in I; try (intuition discriminate). all: rewrite ?negb_false_iff in *.
    all: match goal with K : keyed _ = true |- _ => destruct (KC K) as [K1 K2] end; (split; [auto|]); (split; [destruct (params c0); [destruct (enabled c0)|]; discriminate|assumption]).
  - destruct (to_per s) as [|q rest] eqn:T; [discriminate|]. cbn in G. injection G as ->. destruct (do_receive m (per s) (CsReq id len)) as [[[e' ps'] ev']|] eqn:D; [|discriminate]. injection S as <- <- <- <-.
    receive_cases D; cbn in I; try (intuition discriminate). all: rewrite ?negb_false_iff in *.
    all: match goal with K : keyed _ = true |- _ => destruct (KP K) as [K1 K2] end; rewrite <- E in K1; (split; [auto|]); (split; [destruct (params c0); [destruct (enabled c0)|]; discriminate|assumption]).
Qed.
