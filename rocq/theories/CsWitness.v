(** Concrete histories of channel sounding. *)
From Verif Require Import Prelude Table Cs CsSpec CsProofs CsMore CsSafety CsAgree.
Open Scope N_scope.

Fixpoint play (s : system) (h : list entry) (ops : list op) : option (list entry * system) :=
  match ops with
  | [] => Some (h, s)
  | o :: ops => match step s o with Some (s', st, ps, ev) => play s' (Entry o (delivered s o) st ps ev :: h) ops | None => None end
  end.
Lemma play_history init ops : forall s h h' s', history init h s -> play s h ops = Some (h', s') -> history init h' s'.
Proof.
  induction ops as [|o ops IH]; intros s h h' s' H P; cbn [play] in P; [injection P as <- <-; exact H|].
  destruct (step s o) as [[[[s1 st] ps] ev]|] eqn:E; [|discriminate]. exact (IH _ _ _ _ (h_step _ _ _ _ _ _ _ _ H E) P).
Qed.
Ltac played s ops :=
  let r := eval vm_compute in (play s [] ops) in
  match r with
  | Some (?h, ?s') => exists h, s'; split; [exact (play_history s ops s [] h s' (h_start s) eq_refl)|]
  end.

Definition full : caps := Caps 4 2 3 1 1 1 1 6 0.
Definition set : settings := Settings true full (Some true) None.
Definition start := connected set set.
Definition fifteen : list N := [0; 255; 127; 0; 0; 0; 0; 0; 0; 0].
Definition b1 : body := Body fifteen 1 1 255 0 0 0 1 1 0 0 1 0 2.
Definition b2 : body := Body fifteen 1 2 255 0 0 0 1 1 0 0 1 0 2.
Definition pp : procedure := Procedure 10 10 10 1 1250 2500 0 1.
Definition c_ := Host Central 0.
Definition p_ := Host Peripheral 0.
Definition dc := Deliver Central true.
Definition dp := Deliver Peripheral true.
Definition know := [c_ ReadRemoteCapabilities; dp; dc; c_ (SetDefaultSettings 3 1); p_ (SetDefaultSettings 3 1)].
Definition create := know ++ [c_ (CreateConfig 0 1 b1 0); dp; dc].
Definition ready := create ++ [c_ (SetProcedure 0 pp)].
Definition running := ready ++ [c_ (ProcedureEnable 0 true)].

Lemma is_ready : exists h s, history start h s /\ standing_of Central 0 h = Ready /\ standing_of Peripheral 0 h = Created.
Proof. played start ready. split; reflexivity. Qed.
Lemma is_running : exists h s, history start h s /\ standing_of Central 0 h = Running /\ step s (Host Central 0 (ProcedureEnable 0 false)) = Some (s, COMMAND_DISALLOWED, [], []).
Proof. played start running. split; reflexivity. Qed.
(** Everything done by the book *)
Definition secure := [Encrypt; c_ SecurityEnable; dp; dc; p_ ReadFae; dc; dp].
Definition both_ready := ready ++ [p_ (SetProcedure 0 pp)] ++ secure.
Lemma reported : exists h s, history start h s /\ Exists (start_reported Central 0) h /\ Exists (start_reported Peripheral 0) h /\ Exists (start_accepted Peripheral 0) h /\
  Exists (security_reported Central) h /\ Exists (security_reported Peripheral) h.
Proof.
  played start (both_ready ++ [c_ (ProcedureEnable 0 true); dp; dc; dp]).
  repeat split; repeat (first [apply Exists_cons_hd; red; cbn; eauto 8; fail|apply Exists_cons_tl]).
Qed.
(** The end of the procedure at the peer is reported, yet it runs on *)
Lemma ended_yet_running : exists h s, history start h s /\
  (exists e before, h = e :: before /\ what e = Deliver Central true /\ events e = [ProcedureComplete SUCCESS 0 false] /\ standing_of Central 0 before = Running) /\
  standing_of Central 0 h = Running /\ step s (Host Central 0 (ProcedureEnable 0 true)) = Some (s, COMMAND_DISALLOWED, [], []).
Proof.
  played start (both_ready ++ [c_ (ProcedureEnable 0 true); dp; dc; dp; p_ (ProcedureEnable 0 false); dc]).
  split; [eexists; eexists; repeat split; reflexivity|]. split; reflexivity.
Qed.
(** The peripheral never set procedure parameters *)
Lemma aborts : exists h s, history start h s /\ step s (Deliver Peripheral true) = None /\ standing_of Peripheral 0 h = Created /\ standing_of Central 0 h = Running /\
  Exists (start_accepted Peripheral 0) h.
Proof.
  played start (ready ++ secure ++ [c_ (ProcedureEnable 0 true); dp; dc]). repeat split.
  repeat (first [apply Exists_cons_hd; red; cbn; eauto 8; fail|apply Exists_cons_tl]).
Qed.

(** ** Configurations *)
Lemma has_config : exists h s, history start h s /\ (exists k, lookup (configs (cen s)) 0 = Some k /\ lookup (configs (per s)) 0 = Some (Config (mirrored (the_body k)) false None)) /\ quiet s.
Proof. played start create. split; [eexists; split; reflexivity|split; reflexivity]. Qed.
Definition fourteen : list N := [0; 255; 63; 0; 0; 0; 0; 0; 0; 128].
Definition b14 : body := Body fourteen 1 1 255 0 0 0 1 1 0 0 1 0 2.
Lemma too_few : exists h s k, history start h s /\ lookup (configs (cen s)) 0 = Some k /\ List.length (channels (channel_map (the_body k))) = 14%nat /\ quiet s.
Proof.
  assert (X : exists h s, history start h s /\ exists k, lookup (configs (cen s)) 0 = Some k /\ List.length (channels (channel_map (the_body k))) = 14%nat /\ quiet s).
  { played start (know ++ [c_ (CreateConfig 0 1 b14 0); dp; dc]). eexists. split; [reflexivity|]. split; [vm_compute; reflexivity|split; reflexivity]. }
  destruct X as (h & s & H & k & X). exists h, s, k. auto.
Qed.
Lemma body_valid b : selection b = 1 -> body_ok 0 1 0 b = true -> valid_body b.
Proof. intros S B. apply (body_ok_exact _ _ _ _ S) in B. tauto. Qed.
Lemma b1_valid : valid_body b1. Proof. apply body_valid; vm_compute; reflexivity. Qed.
Lemma b2_valid : valid_body b2. Proof. apply body_valid; vm_compute; reflexivity. Qed.
Lemma full_supports b r : r <= 1 -> capable full full 0 (Body (channel_map b) 1 (main_mode b) (sub_mode b) 0 0 0 1 (sync_phy b) (rtt_type b) r 1 0 2) = true -> supports full r 0 b.
Proof. intros R C. apply capable_exact in C as (_ & [] & _); [|exact R]. now constructor. Qed.
Lemma b1_supported r : r <= 1 -> supports full r 0 b1.
Proof. intros R. apply full_supports; [exact R|]. assert (J : r = 0 \/ r = 1) by lia. destruct J as [-> | ->]; reflexivity. Qed.
Lemma b2_supported r : r <= 1 -> supports full r 0 b2.
Proof. intros R. apply full_supports; [exact R|]. assert (J : r = 0 \/ r = 1) by lia. destruct J as [-> | ->]; reflexivity. Qed.

(** The host at the central asks for a configuration that is valid and that both
    controllers support; the peripheral refuses it *)
Lemma supported_refused : exists h s, history start h s /\ quiet s /\ valid_body b2 /\ supports full 0 0 b2 /\ supports full 1 0 b2 /\
  (exists e, hd_error h = Some e /\ what e = Deliver Central true /\ events e = [ConfigComplete UNSUPPORTED_LMP_OR_LL_PARAMETER 0 1 b2]) /\ configs (per s) = [].
Proof.
  played start (know ++ [c_ (CreateConfig 0 1 b2 0); dp; dc]).
  split; [split; reflexivity|]. split; [exact b2_valid|]. split; [exact (b2_supported 0 ltac:(lia))|]. split; [exact (b2_supported 1 ltac:(lia))|].
  split; [eexists; repeat split; reflexivity|reflexivity].
Qed.
(** A peripheral that can only reflect *)
Definition reflector : caps := Caps 4 2 2 1 1 1 1 6 0.
Lemma reflector_supports : supports reflector 1 0 b1.
Proof. assert (C : capable full reflector 0 b1 = true) by reflexivity. apply capable_exact in C as (_ & _ & S); [exact S|cbn; lia]. Qed.
Lemma role_refused : exists h s, history (connected set (Settings true reflector (Some true) None)) h s /\ quiet s /\ supports reflector (1 - role b1) 0 b1 /\
  (exists e, hd_error h = Some e /\ what e = Deliver Central true /\ events e = [ConfigComplete UNSUPPORTED_LMP_OR_LL_PARAMETER 0 1 b1]) /\ configs (per s) = [].
Proof.
  played (connected set (Settings true reflector (Some true) None)) ([c_ ReadRemoteCapabilities; dp; dc; c_ (SetDefaultSettings 3 1); c_ (CreateConfig 0 1 b1 0); dp; dc]).
  split; [split; reflexivity|]. split; [exact reflector_supports|]. split; [eexists; repeat split; reflexivity|reflexivity].
Qed.
(** A removed configuration stays at the other end *)
Lemma removed_kept : exists h s, history start h s /\ quiet s /\ standing_of Central 0 h = Absent /\ standing_of Peripheral 0 h = Created /\
  exists e, In e h /\ what e = c_ (RemoveConfig 0) /\ status_of e = SUCCESS.
Proof. played start (create ++ [c_ (RemoveConfig 0); dp; dc]). split; [split; reflexivity|]. repeat split. eexists. split; [do 2 right; left; reflexivity|]. split; reflexivity. Qed.
(** The refusal of a controller without the feature names configuration 0 *)
Lemma wrong_configuration : exists h s, history (connected set (Settings false full (Some true) None)) h s /\ quiet s /\ standing_of Central 1 h = Created /\ standing_of Peripheral 1 h = Absent.
Proof.
  played (connected set (Settings false full (Some true) None)) ([c_ (WriteCapabilities full); c_ (SetDefaultSettings 3 1); c_ (CreateConfig 1 1 b1 0); dp; dc]).
  split; [split; reflexivity|]. split; reflexivity.
Qed.

(** ** Security *)
Lemma nobody_told x h : forallb (fun e => forallb (fun v => match v with SecurityComplete _ => false | _ => true end) (events e)) h = true -> ~ Exists (security_reported x) h.
Proof.
  intros F X. apply Exists_exists in X as (e & I & m & _ & J). rewrite forallb_forall in F. specialize (F e I). rewrite forallb_forall in F. discriminate (F _ J).
Qed.
Lemma accepted_without : exists h s, history start h s /\ Exists (start_accepted Central 0) h /\ forall x, ~ Exists (security_reported x) h.
Proof.
  played start (know ++ [p_ (CreateConfig 0 1 b1 0); dc; c_ (SetProcedure 0 pp); c_ ReadFae; dp; dp; dc; p_ (SetProcedure 0 pp); Encrypt; c_ SecurityEnable; p_ (ProcedureEnable 0 true); dc]).
  split; [repeat (first [apply Exists_cons_hd; red; cbn; eauto 8; fail|apply Exists_cons_tl])|]. intros x. apply nobody_told. reflexivity.
Qed.
Lemma refused_yet_reported : exists h s, history start h s /\ ~ Exists is_encrypt h /\
  exists e, hd_error h = Some e /\ start_reported Central 0 e /\ got e = Some (CsRsp PIN_OR_KEY_MISSING 0 0).
Proof.
  played start (ready ++ [c_ (ProcedureEnable 0 true); dp; dc]).
  split; [intros X; apply Exists_exists in X as (e & I & E); cbn in I; repeat (destruct I as [<-|I]; [discriminate E|]); destruct I|].
  eexists. split; [reflexivity|]. split; [red; cbn; eauto 8|reflexivity].
Qed.
