From Coq Require Import String.
From Verif Require Import Prelude Table Address PhyModel PhyModelSpec PhyModelProofs TestCommand.
Open Scope N_scope.

Lemma list_eqb_neq a b : list_eqb a b = false <-> a <> b.
Proof.
  split.
  - intros H E. subst. rewrite list_eqb_refl in H. discriminate.
  - intros H. apply not_true_is_false. intros K. apply H. now apply list_eqb_eq.
Qed.

(** The commands that misbehave. *)
Definition named (s : string) (name : list N) : Prop := name = str s.
Definition needs_argument (name : list N) : Prop :=
  named "del"%string name \/ named "del_phy"%string name \/ named "set_timer_period"%string name.
Definition bad_interval (name : list N) (args : list (list N)) : Prop :=
  named "add"%string name /\ exists a i r, args = str "beacon"%string :: a :: i :: r /\ stoi i = None.
Definition list_with_arguments (name : list N) (args : list (list N)) : Prop :=
  named "list"%string name /\ args <> [].

Definition answered (o : outcome) : Prop := match o with Ok _ [_] => True | _ => False end.

Lemma handle_cases name args :
  (handle name args = Undefined <-> needs_argument name /\ args = []) /\
  (handle name args = Throws <-> bad_interval name args) /\
  (answered (handle name args) <->
     ~ (needs_argument name /\ args = []) /\ ~ bad_interval name args /\ ~ list_with_arguments name args).
Proof.
  assert (K : forall (P Q R : Prop) (o : outcome),
    (match o with Undefined => P /\ ~ Q /\ ~ R | Throws => ~ P /\ Q /\ ~ R | Ok _ [_] => ~ P /\ ~ Q /\ ~ R | Ok _ _ => ~ P /\ ~ Q /\ R end) ->
    (o = Undefined <-> P) /\ (o = Throws <-> Q) /\ (answered o <-> ~ P /\ ~ Q /\ ~ R)).
  { intros P Q R [e [|r [|]]| |]; cbn; intuition discriminate. }
  apply K. unfold needs_argument, bad_interval, list_with_arguments, named. unfold handle. cbv zeta.
  Local Ltac fin := unfold not; repeat split; (intros; repeat match goal with
    | H : _ /\ _ |- _ => destruct H
    | H : _ \/ _ |- _ => destruct H
    | H : exists _, _ |- _ => destruct H
    end; try discriminate; try congruence; auto).
  destruct (list_eqb name (str "add")) eqn:E1.
  { apply list_eqb_eq in E1. subst name. destruct args as [|k rest]; [fin|].
    destruct (list_eqb k (str "beacon")) eqn:Eb.
    - apply list_eqb_eq in Eb. subst k. destruct rest as [|a [|i r]]; [fin|fin|].
      destruct (stoi i) eqn:Ei.
      + fin.
      + split; [fin|]. split; [|fin]. split; [reflexivity|]. exists a, i, r. auto.
    - destruct (list_eqb k (str "sniffer")); fin;
        match goal with H : _ :: _ = _ |- _ => injection H as -> _; rewrite list_eqb_refl in Eb; discriminate end. }
  assert (B : ~ (name = str "add" /\ exists a i r, args = str "beacon" :: a :: i :: r /\ stoi i = None)).
  { intros [-> _]. rewrite list_eqb_refl in E1. discriminate. }
  Local Ltac done_cmd B := split; [fin|]; split; [exact B|fin].
  Local Ltac step_cmd E := match goal with
    | |- context [if list_eqb ?n (str ?s) then _ else _] => destruct (list_eqb n (str s)) eqn:E
    end.
  step_cmd E2; [apply list_eqb_eq in E2; subst name; destruct args as [|? [|? [|]]]; try done_cmd B; cbv zeta; destruct (port_ok _ _); done_cmd B|].
  step_cmd E3; [apply list_eqb_eq in E3; subst name; destruct args; [split; [auto|]; split; [exact B|fin]|done_cmd B]|].
  step_cmd E4; [apply list_eqb_eq in E4; subst name; destruct args as [|? []]; try done_cmd B;
                destruct (list_eqb _ (str "LOW_ENERGY")); [done_cmd B|]; destruct (list_eqb _ (str "BR_EDR")); done_cmd B|].
  step_cmd E5; [apply list_eqb_eq in E5; subst name; destruct args; [split; [auto|]; split; [exact B|fin]|done_cmd B]|].
  step_cmd E6; [apply list_eqb_eq in E6; subst name; destruct args as [|? [|? []]]; done_cmd B|].
  step_cmd E7; [apply list_eqb_eq in E7; subst name; destruct args as [|? [|? []]]; done_cmd B|].
  step_cmd E8; [apply list_eqb_eq in E8; subst name; destruct args; done_cmd B|].
  step_cmd E9; [apply list_eqb_eq in E9; subst name; destruct args as [|? [|? []]]; done_cmd B|].
  step_cmd E10; [apply list_eqb_eq in E10; subst name; destruct args as [|? [|? []]]; try done_cmd B; destruct (existsb _ _); done_cmd B|].
  step_cmd E11; [apply list_eqb_eq in E11; subst name; destruct args; [split; [auto|]; split; [exact B|fin]|destruct (_ =? 0); done_cmd B]|].
  assert (NN : ~ ((name = str "del" \/ name = str "del_phy" \/ name = str "set_timer_period") /\ args = [])).
  { intros [[ -> | [ -> | -> ]] _]; rewrite list_eqb_refl in *; discriminate. }
  assert (NL : ~ (name = str "list" /\ args <> [])).
  { intros [-> _]. rewrite list_eqb_refl in E8. discriminate. }
  step_cmd E12; [auto|]. step_cmd E13; [auto|]. step_cmd E14; [auto|]. auto.
Qed.

(** ** Commands that name unknown devices or layers *)

Lemma unregister_absent_device s l d : Wf s -> ~ present s d -> unregister s l d = s.
Proof.
  intros W N. unfold unregister. destruct (lookup (layers s) l) as [ly|] eqn:E; [|reflexivity].
  destruct (mem d (members ly)) eqn:M; [|reflexivity]. apply mem_spec in M. exfalso. apply N.
  eapply memb_att_present; [exact W|]. exists ly. eauto.
Qed.
Lemma unregisters_absent_device d : forall ls s, Wf s -> ~ present s d -> fold_left (fun s l => unregister s l d) ls s = s.
Proof.
  induction ls as [|l ls IH]; intros s W N; [reflexivity|]. cbn [fold_left].
  rewrite (unregister_absent_device s l d W N). now apply IH.
Qed.
Lemma with_same s : with_tables s (layers s) (devices s) = s.
Proof. now destruct s. Qed.

Definition device_named (o : op) : option N :=
  match o with RemoveDevice d | AddToPhy d _ | RemoveFromPhy d _ | SetAddress d _ => Some d | _ => None end.
Definition layer_named (o : op) : option N :=
  match o with RemovePhy l | AddToPhy _ l | RemoveFromPhy _ l => Some l | _ => None end.

Lemma unknown_no_effect s o : reachable s ->
  (exists d, device_named o = Some d /\ ~ present s d) \/ (exists l, layer_named o = Some l /\ ~ In l (keys (layers s))) ->
  step s o = Some s.
Proof.
  intros R. apply reachable_wf in R. intros [(d & E & N)|(l & E & N)]; destruct o; try discriminate; injection E as ->; cbn [step].
  - unfold remove_device. rewrite unregisters_absent_device by assumption. rewrite erase_absent by exact N. now rewrite with_same.
  - unfold register. apply lookup_none in N. rewrite N. now destruct (lookup (layers s) l).
  - now rewrite unregister_absent_device.
  - apply lookup_none in N. now rewrite N.
  - unfold remove_phy, unregister_all. pose proof N as N'. apply lookup_none in N'. rewrite N'.
    rewrite erase_absent by exact N. now rewrite with_same.
  - unfold register. apply lookup_none in N. now rewrite N.
  - unfold unregister. apply lookup_none in N. now rewrite N.
Qed.

(** ** Numbers are read back *)

(** Decimal digits, most significant first. *)
Inductive decimal : list N -> N -> Prop :=
| dec_one d : d < 10 -> decimal [48 + d] d
| dec_more s v d : decimal s v -> d < 10 -> decimal (s ++ [48 + d]) (10 * v + d).

Lemma digit_value_dec d : d < 10 -> digit_value (48 + d) = Some d.
Proof.
  intros H. unfold digit_value. destruct (N.leb_spec 48 (48 + d)); [|lia]. destruct (N.leb_spec (48 + d) 57); [|lia].
  cbn. f_equal. lia.
Qed.
Lemma digits_app base a b : forall acc, snd (digits base acc a) = [] ->
  digits base acc (a ++ b) = digits base (fst (digits base acc a)) b.
Proof.
  induction a as [|c a IH]; intros acc H; [reflexivity|]. cbn in *. destruct (digit_value c) as [d|]; [|discriminate].
  destruct (d <? base); [|discriminate]. now apply IH.
Qed.
Lemma digits_decimal s v : decimal s v -> digits 10 0 s = (v, []).
Proof.
  induction 1 as [d H|s v d D IH H].
  - cbn. rewrite digit_value_dec by exact H. destruct (N.ltb_spec d 10); [|lia]. f_equal; lia.
  - rewrite digits_app by (rewrite IH; reflexivity). rewrite IH. cbn. rewrite digit_value_dec by exact H.
    destruct (N.ltb_spec d 10); [|lia]. reflexivity.
Qed.
Lemma decimal_head s v : decimal s v -> exists d r, s = (48 + d) :: r /\ d < 10.
Proof.
  induction 1 as [d H|s v d D (e & r & -> & He) H]; [eauto|]. exists e, (r ++ [48 + d]). auto.
Qed.
Lemma decimal_chars s v : decimal s v -> Forall (fun c => 48 <= c < 58) s.
Proof.
  induction 1 as [d H|s v d D IH H]; [repeat constructor; lia|].
  apply Forall_app. split; [exact IH|repeat constructor; lia].
Qed.

Lemma sign_decimal c r : 48 <= c < 58 -> sign (skip_spaces (c :: r)) = (false, c :: r).
Proof.
  intros H. cbn. unfold is_space. destruct (N.eqb_spec c 32); [lia|]. destruct (N.leb_spec 9 c); [|lia].
  destruct (N.leb_spec c 13); [lia|]. cbn. destruct (N.eqb_spec c 45); [lia|]. destruct (N.eqb_spec c 43); [lia|]. reflexivity.
Qed.
Lemma skip_prefix_decimal s : Forall (fun c => 48 <= c < 58) s -> skip_prefix s = s.
Proof.
  intros F. destruct s as [|a [|b [|c s]]]; try reflexivity. cbn. inversion F as [|? ? _ F1]; subst. inversion F1 as [|? ? B _]; subst.
  destruct (N.eqb_spec b 120); [lia|]. destruct (N.eqb_spec b 88); [lia|]. cbn. now rewrite andb_false_r.
Qed.

(** An identifier written in decimal, without a leading zero unless it is 0,
    names that device. *)
Lemma parse_int_decimal s v : decimal s v -> (hd 0 s = 48 -> s = [48]) -> v < 2 ^ 32 -> parse_int s = v.
Proof.
  intros D Z H. unfold parse_int, strtoul0. pose proof (decimal_chars s v D) as F.
  destruct (decimal_head s v D) as (d & r & E & Hd). rewrite E. rewrite sign_decimal by lia. rewrite <- E. cbv beta iota zeta.
  rewrite skip_prefix_decimal by exact F. rewrite list_eqb_refl.
  assert (V : fst (digits (base_of s) 0 s) = v).
  { destruct (N.eq_dec (hd 0 s) 48) as [E0|E0].
    - pose proof (digits_decimal s v D) as Dv. rewrite (Z E0) in *. vm_compute in Dv. injection Dv as <-. reflexivity.
    - assert (B : base_of s = 10) by (rewrite E in *; cbn in *; destruct (N.eqb_spec (48 + d) 48); [congruence|reflexivity]).
      rewrite B, (digits_decimal s v D). reflexivity. }
  rewrite V. destruct (N.leb_spec (2 ^ 64) v) as [K|_].
  - exfalso. change (2 ^ 32) with 4294967296 in H. change (2 ^ 64) with 18446744073709551616 in K. lia.
  - reflexivity.
Qed.
Lemma parse_decimal s v : decimal s v -> (hd 0 s = 48 -> s = [48]) -> v < 2 ^ 32 -> to_id (parse_int s) = v.
Proof. intros D Z H. rewrite (parse_int_decimal s v D Z H). now apply N.mod_small. Qed.

Lemma truncated_id : exists s, decimal s 4294967296 /\
  handle (str "del") [s] = Ok [ETopology (RemoveDevice 0)] [Done].
Proof.
  exists (str "4294967296"). split; [|vm_compute; reflexivity].
  change 4294967296 with (10 * (10 * (10 * (10 * (10 * (10 * (10 * (10 * (10 * 4 + 2) + 9) + 4) + 9) + 6) + 7) + 2) + 9) + 6).
  change (str "4294967296") with ((((((((([48 + 4] ++ [48 + 2]) ++ [48 + 9]) ++ [48 + 4]) ++ [48 + 9]) ++ [48 + 6]) ++ [48 + 7]) ++ [48 + 2]) ++ [48 + 9]) ++ [48 + 6]).
  repeat (apply dec_more; [|lia]). apply dec_one. lia.
Qed.
Lemma bad_address_clears : exists s s', reachable s /\ handle (str "set_device_address") [str "0"; str "junk"] =
   Ok [ETopology (SetAddress 0 kEmpty)] [Done] /\ address_of s 0 <> Some kEmpty /\
   step s (SetAddress 0 kEmpty) = Some s' /\ address_of s' 0 = Some kEmpty.
Proof.
  destruct (run (init [0;0;0;0]) [AddDevice [1;2;3;4;5;6]]) as [s|] eqn:E; [|discriminate E].
  exists s. vm_compute in E. injection E as <-. eexists. split; [exists [0;0;0;0], [AddDevice [1;2;3;4;5;6]]; reflexivity|].
  split; [vm_compute; reflexivity|]. split; [discriminate|]. split; reflexivity.
Qed.

Example handled_demo : handle (str "add_device_to_phy") [str "12"; str "0"] = Ok [ETopology (AddToPhy 12 0)] [Done] /\
  handle (str "add") [str "beacon"; str "be:ac:01:55:00:01"; str "1000"] =
    Ok [ETopology (AddDevice [1; 0; 85; 1; 172; 190])] [Done] /\
  handle (str "add") [str "beacon"; str "be:ac:01:55:00:01"; str "x"] = Throws /\
  handle (str "del") [] = Undefined /\ handle (str "list") [str "x"] = Ok [] [].
Proof. repeat split. Qed.
