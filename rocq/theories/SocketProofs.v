(** Lemmas about sockets. *)
From Verif Require Import Prelude Table Socket SocketSpec.
Open Scope N_scope.

Definition held (s : state) (a : N) : option N := match lookup (socks s) a with Some k => fd k | None => None end.

Record inv (h : list (op * list effect)) (s : state) : Prop := {
  i_holds : forall a, match held s a with Some f => exists i, lookup (open s) f = Some (i, false) /\ holds h a = Some i | None => holds h a = None end;
  i_made : forall f i b, lookup (open s) f = Some (i, b) -> i < made s;
  i_files : forall f g i b c, lookup (open s) f = Some (i, b) -> lookup (open s) g = Some (i, c) -> f = g;
  i_one : forall a b f, held s a = Some f -> held s b = Some f -> a = b;
  i_owned : forall f i, lookup (open s) f = Some (i, false) -> exists a, held s a = Some f;
  i_born : forall i, born h i -> i < made s /\
    (closes i h = O /\ (exists f, lookup (open s) f = Some (i, false)) \/ closes i h = 1%nat /\ forall f b, lookup (open s) f <> Some (i, b));
  i_new : forall i, made s <= i -> closes i h = O }.

Lemma inv_keep h h' s s' : inv h s -> (forall a, held s' a = held s a) -> open s' = open s -> made s' = made s ->
  (forall a, holds h' a = holds h a) -> (forall i, closes i h' = closes i h) -> (forall i, born h' i -> born h i) -> inv h' s'.
Proof.
  intros [A B C D E F G] H O M K L P. split.
  - intro a. rewrite H, O, K. apply A.
  - rewrite O, M. exact B.
  - rewrite O. exact C.
  - intros a b f. rewrite !H. apply D.
  - intros f i. rewrite O. intro X. destruct (E _ _ X) as (a & Y). exists a. now rewrite H.
  - intros i X. rewrite M, O, L. apply F, P, X.
  - intros i X. rewrite L. apply G. now rewrite <- M.
Qed.

Lemma inv_closed h h' s s' a f i0 : inv h s -> held s a = Some f -> lookup (open s) f = Some (i0, false) ->
  (forall x, held s' x = if x =? a then None else held s x) -> open s' = erase (open s) f -> made s' = made s ->
  (forall x, holds h' x = if x =? a then None else holds h x) ->
  (forall i, closes i h' = ((if (i0 =? i)%N then 1 else 0) + closes i h)%nat) -> (forall i, born h' i -> born h i) -> inv h' s'.
Proof.
  intros [A B C D E F G] HA OF H O M K L P. split.
  - intro x. rewrite H, O, K. destruct (N.eqb_spec x a) as [->|X]; [reflexivity|]. specialize (A x).
    destruct (held s x) as [g|] eqn:HX; [|exact A]. destruct A as (i & A1 & A2). exists i. split; [|exact A2].
    rewrite lookup_erase. destruct (N.eqb_spec g f) as [->|]; [|exact A1]. elim X. exact (D _ _ _ HX HA).
  - intros g i b. rewrite O, M, lookup_erase. destruct (g =? f); [discriminate|]. apply B.
  - intros g g' i b c. rewrite O, !lookup_erase. destruct (g =? f); [discriminate|]. destruct (g' =? f); [discriminate|]. apply C.
  - intros x y g. rewrite !H. destruct (x =? a); [discriminate|]. destruct (y =? a); [discriminate|]. apply D.
  - intros g i. rewrite O, lookup_erase. destruct (N.eqb_spec g f) as [|X]; [discriminate|]. intro Y.
    destruct (E _ _ Y) as (x & Z). exists x. rewrite H. destruct (N.eqb_spec x a) as [->|]; [|exact Z]. congruence.
  - intros i X. rewrite M, L, O. destruct (F _ (P _ X)) as [F1 F2]. split; [exact F1|].
    destruct (N.eqb_spec i0 i) as [->|NE].
    + right. destruct F2 as [[F2 _]|[_ F2]]; [|now elim (F2 f false)]. split; [lia|].
      intros g b. rewrite lookup_erase. destruct (N.eqb_spec g f) as [|Y]; [discriminate|]. intro Z. elim Y. exact (C _ _ _ _ _ Z OF).
    + destruct F2 as [[F2 (g & F3)]|[F2 F3]]; [left|right]; (split; [exact F2|]).
      * exists g. rewrite lookup_erase. destruct (N.eqb_spec g f) as [->|]; [|exact F3]. congruence.
      * intros g b. rewrite lookup_erase. destruct (g =? f); [discriminate|]. apply F3.
  - intros i X. rewrite L, G by (now rewrite <- M). destruct (N.eqb_spec i0 i) as [->|]; [|reflexivity].
    apply B in OF. rewrite M in X. lia.
Qed.

Lemma closes_repeat i c f x n : c <> CClose -> closes_in i (repeat (Sys c f x) n) = O.
Proof. intro C. induction n as [|n IH]; [reflexivity|]. unfold closes_in in *. cbn. destruct c; try exact IH. now elim C. Qed.
Lemma closes_in_app i l m : closes_in i (l ++ m) = (closes_in i l + closes_in i m)%nat.
Proof. unfold closes_in. now rewrite filter_app, app_length. Qed.

Lemma held_unwatch a s x : held (unwatch a s) x = held s x.
Proof.
  unfold unwatch, held. destruct (lookup (socks s) a) as [[[f|] []]|] eqn:L; try reflexivity; cbn [socks with_socks with_watched];
    rewrite lookup_put; destruct (N.eqb_spec x a) as [->|]; try reflexivity; now rewrite L.
Qed.
Lemma unwatch_rest a s : open (unwatch a s) = open s /\ made (unwatch a s) = made s.
Proof. unfold unwatch. destruct (lookup (socks s) a) as [[[f|] []]|]; now split. Qed.

(** What Close does to the descriptors *)
Lemma close_shape a l k s s' out : close a l k s = Next s' out ->
  has (socks s) a = true /\
  ((held s a = None /\ s' = s /\ out = []) \/
   exists f r n, held s a = Some f /\ settle l = Some (r, n)
     /\ (forall x, held s' x = if x =? a then None else held s x)
     /\ open s' = erase (open s) f /\ made s' = made s
     /\ out = repeat (Sys CShutdown f (file_at s f)) (S n) ++ [Sys CClose f (file_at s f)]).
Proof.
  unfold close. rewrite has_lookup. unfold held at 1 2. destruct (lookup (socks s) a) as [[[f|] w]|] eqn:L; [| |discriminate].
  - destruct (settle l) as [[r n]|] eqn:S; [|discriminate]. intros [= <- <-]. split; [reflexivity|]. right.
    exists f, r, n. split; [reflexivity|]. split; [reflexivity|]. split; [|split; [|split]].
    + intro x. unfold held at 1. cbn [socks with_errno with_open with_socks]. rewrite lookup_put.
      destruct (x =? a); [reflexivity|]. exact (held_unwatch a s x).
    + cbn [open with_errno with_open]. now rewrite (proj1 (unwatch_rest a s)).
    + exact (proj2 (unwatch_rest a s)).
    + reflexivity.
  - intros [= <- <-]. split; [reflexivity|]. left. now repeat split.
Qed.

Lemma held_erase s a x : held (with_socks (erase (socks s) a) s) x = if x =? a then None else held s x.
Proof. unfold held. cbn [socks with_socks]. rewrite lookup_erase. now destruct (x =? a). Qed.

Lemma history_inv h s : history h s -> inv h s.
Proof.
  induction 1 as [|h s o s' out H IH S].
  { split; try discriminate; try contradiction; reflexivity. }
  assert (KEEP : (forall a, held s' a = held s a) -> open s' = open s -> made s' = made s ->
     (forall a, holds ((o, out) :: h) a = holds h a) -> (forall i, closes_in i out = O) ->
     (forall i, born ((o, out) :: h) i -> born h i) -> inv ((o, out) :: h) s').
  { intros K1 K2 K3 K4 K5 K6. apply (inv_keep h _ s); try assumption. intro i. cbn [closes]. now rewrite K5. }
  destruct o as [a k|a b|a l|a l|a k|a l k|a l k|a ok|a|f|f|f]; cbn [step] in S.
  - (* Make *)
    unfold make in S. destruct (has (socks s) a) eqn:HA; [discriminate|].
    assert (NH : held s a = None) by (unfold held; rewrite has_lookup in HA; destruct (lookup (socks s) a); [discriminate|reflexivity]).
    destruct IH as [A B C D E F G]. pose proof (A a) as HN. rewrite NH in HN.
    destruct k as [f|].
    + destruct (has (open s) f) eqn:HF; [discriminate|]. injection S as <- <-.
      assert (NF : lookup (open s) f = None) by (rewrite has_lookup in HF; destruct (lookup (open s) f); [discriminate|reflexivity]).
      set (s' := with_made _ _) in *.
      assert (HS : forall x, held s' x = if x =? a then Some f else held s x).
      { intro x. unfold held, s'. cbn [socks with_made with_open with_socks]. rewrite lookup_put. now destruct (x =? a). }
      assert (OS : forall g, lookup (open s') g = if g =? f then Some (made s, false) else lookup (open s) g).
      { intro g. unfold s'. cbn [open with_made with_open]. apply lookup_put. }
      assert (MS : made s' = made s + 1) by reflexivity. clearbody s'. split.
      * intro x. rewrite HS. cbn [holds given]. destruct (N.eqb_spec x a) as [->|X].
        { exists (made s). rewrite OS, N.eqb_refl. now split. }
        specialize (A x). destruct (held s x) as [g|]; [|exact A]. destruct A as (i & A1 & A2). exists i. split; [|exact A2].
        rewrite OS. destruct (N.eqb_spec g f) as [->|]; [congruence|exact A1].
      * intros g i b. rewrite OS, MS. destruct (g =? f); [intros [= <- <-]; lia|]. intro X. apply B in X. lia.
      * intros g g' i b c. rewrite !OS. destruct (N.eqb_spec g f) as [->|], (N.eqb_spec g' f) as [->|]; try reflexivity.
        -- intros [= <- <-] X. apply B in X. lia.
        -- intros X [= <- <-]. apply B in X. lia.
        -- apply C.
      * intros x y g. rewrite !HS. destruct (N.eqb_spec x a) as [->|], (N.eqb_spec y a) as [->|]; try reflexivity.
        -- intros [= <-] X. specialize (A y). rewrite X in A. destruct A as (i & A1 & _). congruence.
        -- intros X [= <-]. specialize (A x). rewrite X in A. destruct A as (i & A1 & _). congruence.
        -- apply D.
      * intros g i. rewrite OS. destruct (N.eqb_spec g f) as [->|].
        { intros _. exists a. now rewrite HS, N.eqb_refl. }
        intro X. destruct (E _ _ X) as (x & Y). exists x. rewrite HS. destruct (N.eqb_spec x a) as [->|]; [congruence|exact Y].
      * intros i [X|X].
        { cbn [given] in X. injection X as <-. split; [lia|]. left. split; [exact (G _ (N.le_refl _))|].
          exists f. now rewrite OS, N.eqb_refl. }
        destruct (F _ X) as [F1 F2]. split; [lia|].
        destruct F2 as [[F2 (g & F3)]|[F2 F3]]; [left|right]; (split; [exact F2|]).
        -- exists g. rewrite OS. destruct (N.eqb_spec g f) as [->|]; [congruence|exact F3].
        -- intros g b. rewrite OS. destruct (g =? f); [|apply F3]. intros [= Y _]. lia.
      * intros i X. apply G. lia.
    + injection S as <- <-. apply KEEP; try reflexivity.
      * intro x. unfold held. cbn [socks with_errno with_socks]. rewrite lookup_put. destruct (N.eqb_spec x a) as [->|]; [|reflexivity].
        now rewrite has_lookup in HA; destruct (lookup (socks s) a).
      * intro x. cbn [holds given]. destruct (N.eqb_spec x a) as [->|]; congruence.
      * intros i [X|X]; [discriminate|exact X].
  - (* Move *)
    unfold move in S. destruct (lookup (socks s) a) as [k|] eqn:L; [|discriminate]. destruct (has (socks s) b) eqn:HB; [discriminate|].
    injection S as <- <-.
    assert (NB : held s b = None) by (unfold held; rewrite has_lookup in HB; destruct (lookup (socks s) b); [discriminate|reflexivity]).
    assert (AB : a <> b) by (intros ->; rewrite has_lookup, L in HB; discriminate).
    destruct IH as [A B C D E F G].
    set (s' := with_socks _ _) in *.
    assert (HS : forall x, held s' x = if x =? a then None else if x =? b then held s a else held s x).
    { intro x. unfold held, s'. cbn [socks with_socks]. rewrite !lookup_put. destruct (x =? a); [reflexivity|].
      destruct (x =? b); [now rewrite L|reflexivity]. }
    assert (OS : open s' = open s) by reflexivity. assert (MS : made s' = made s) by reflexivity. clearbody s'. split.
    + intro x. rewrite HS, OS. cbn [holds]. destruct (N.eqb_spec x a) as [->|]; [reflexivity|].
      destruct (N.eqb_spec x b) as [->|]; [exact (A a)|exact (A x)].
    + rewrite OS, MS. exact B.
    + rewrite OS. exact C.
    + intros x y g. rewrite !HS. destruct (N.eqb_spec x a) as [->|]; [discriminate|]. destruct (N.eqb_spec y a) as [->|]; [discriminate|].
      destruct (N.eqb_spec x b) as [->|], (N.eqb_spec y b) as [->|]; try reflexivity; intros X Y; pose proof (D _ _ _ X Y); congruence.
    + intros g i. rewrite OS. intro X. destruct (E _ _ X) as (x & Y). destruct (N.eq_dec x a) as [->|NX].
      * exists b. rewrite HS. destruct (N.eqb_spec b a) as [->|]; [now elim AB|]. now rewrite N.eqb_refl.
      * exists x. rewrite HS. destruct (N.eqb_spec x a) as [|]; [contradiction|]. destruct (N.eqb_spec x b) as [->|]; [congruence|exact Y].
    + intros i X. rewrite OS, MS. exact (F i X).
    + intros i X. rewrite MS in X. exact (G i X).
  - (* Recv *)
    unfold recv in S. destruct (lookup (socks s) a) as [[[f|] w]|] eqn:L; [| |discriminate].
    + destruct (settle l) as [[r n]|]; [|discriminate]. injection S as <- <-. apply KEEP; try reflexivity; [|auto].
      intro i. refine (eq_trans (closes_in_app i (repeat _ (Datatypes.S n)) [_]) _). now rewrite closes_repeat by discriminate.
    + injection S as <- <-. apply KEEP; try reflexivity. auto.
  - (* Send *)
    unfold send in S. destruct (lookup (socks s) a) as [[[f|] w]|] eqn:L; [| |discriminate].
    + destruct (settle l) as [[r n]|]; [|discriminate]. injection S as <- <-. apply KEEP; try reflexivity; [|auto].
      intro i. refine (eq_trans (closes_in_app i (repeat _ (Datatypes.S n)) [_]) _). now rewrite closes_repeat by discriminate.
    + injection S as <- <-. apply KEEP; try reflexivity. auto.
  - (* Connected *)
    unfold connected in S. destruct (lookup (socks s) a) as [[[f|] w]|] eqn:L; [| |discriminate];
      injection S as <- <-; apply KEEP; try reflexivity; auto.
  - (* Close *)
    apply close_shape in S as [_ [(HN & -> & ->)|(f & r & n & HA & _ & HS & OS & MS & ->)]].
    + apply KEEP; try reflexivity; [|auto]. intro x. cbn [holds]. destruct (N.eqb_spec x a) as [->|]; [|reflexivity].
      pose proof (i_holds _ _ IH a) as X. now rewrite HN in X.
    + pose proof (i_holds _ _ IH a) as X. rewrite HA in X. destruct X as (i0 & OF & _).
      apply (inv_closed h _ s _ a f i0); try assumption; try reflexivity; [|auto].
      intro i. cbn [closes]. f_equal. rewrite closes_in_app, closes_repeat by discriminate. unfold file_at. rewrite OF.
      unfold closes_in. cbn. destruct (i0 =? i); reflexivity.
  - (* Destroy *)
    unfold destroy in S. destruct (close a l k s) as [s1 out1| |] eqn:CL; try discriminate. injection S as <- <-.
    apply close_shape in CL as [_ [(HN & -> & ->)|(f & r & n & HA & _ & HS & OS & MS & ->)]].
    + apply KEEP; try reflexivity; [| |auto].
      * intro x. rewrite held_erase. destruct (N.eqb_spec x a) as [->|]; [now rewrite HN|reflexivity].
      * intro x. cbn [holds]. destruct (N.eqb_spec x a) as [->|]; [|reflexivity].
        pose proof (i_holds _ _ IH a) as X. now rewrite HN in X.
    + pose proof (i_holds _ _ IH a) as X. rewrite HA in X. destruct X as (i0 & OF & _).
      apply (inv_closed h _ s _ a f i0); try assumption; try reflexivity; [| |auto].
      * intro x. rewrite held_erase, HS. now destruct (x =? a).
      * intro i. cbn [closes]. f_equal. rewrite closes_in_app, closes_repeat by discriminate. unfold file_at. rewrite OF.
        unfold closes_in. cbn. destruct (i0 =? i); reflexivity.
  - (* Watch *)
    unfold watch in S. destruct (lookup (socks s) a) as [[[f|] []]|] eqn:L; try discriminate;
      injection S as <- <-; apply KEEP; try reflexivity; auto.
    intro x. unfold held. cbn [socks with_watched with_socks]. rewrite lookup_put. destruct (N.eqb_spec x a) as [->|]; [now rewrite L|reflexivity].
  - (* Unwatch *)
    destruct (has (socks s) a); [|discriminate]. injection S as <- <-. apply KEEP; try reflexivity; auto.
    + apply held_unwatch.
    + apply unwatch_rest.
    + apply unwatch_rest.
  - (* Ready *)
    unfold ready in S. destruct (lookup (watched s) f); [|discriminate]. destruct (has (socks s) n); [|discriminate].
    injection S as <- <-. apply KEEP; try reflexivity; auto.
  - (* OtherOpen *)
    destruct (has (open s) f) eqn:HF; [discriminate|]. injection S as <- <-.
    assert (NF : lookup (open s) f = None) by (rewrite has_lookup in HF; destruct (lookup (open s) f); [discriminate|reflexivity]).
    destruct IH as [A B C D E F G]. set (s' := with_made _ _) in *.
    assert (HS : forall x, held s' x = held s x) by reflexivity.
    assert (OS : forall g, lookup (open s') g = if g =? f then Some (made s, true) else lookup (open s) g).
    { intro g. unfold s'. cbn [open with_made with_open]. apply lookup_put. }
    assert (MS : made s' = made s + 1) by reflexivity. clearbody s'. split.
    + intro x. rewrite HS. cbn [holds]. specialize (A x). destruct (held s x) as [g|]; [|exact A].
      destruct A as (i & A1 & A2). exists i. split; [|exact A2]. rewrite OS. destruct (N.eqb_spec g f) as [->|]; [congruence|exact A1].
    + intros g i b. rewrite OS, MS. destruct (g =? f); [intros [= <- <-]; lia|]. intro X. apply B in X. lia.
    + intros g g' i b c. rewrite !OS. destruct (N.eqb_spec g f) as [->|], (N.eqb_spec g' f) as [->|]; try reflexivity.
      * intros [= <- <-] X. apply B in X. lia.
      * intros X [= <- <-]. apply B in X. lia.
      * apply C.
    + intros x y g. rewrite !HS. apply D.
    + intros g i. rewrite OS. destruct (g =? f); [discriminate|]. intro X. destruct (E _ _ X) as (x & Y). exists x. now rewrite HS.
    + intros i X. destruct (F _ X) as [F1 F2]. split; [lia|].
      destruct F2 as [[F2 (g & F3)]|[F2 F3]]; [left|right]; (split; [exact F2|]).
      * exists g. rewrite OS. destruct (N.eqb_spec g f) as [->|]; [congruence|exact F3].
      * intros g b. rewrite OS. destruct (g =? f); [|apply F3]. intros [= Y _]. lia.
    + intros i X. apply G. lia.
  - (* OtherClose *)
    destruct (lookup (open s) f) as [[i0 []]|] eqn:LF; try discriminate. injection S as <- <-.
    destruct IH as [A B C D E F G]. set (s' := with_open _ _) in *.
    assert (HS : forall x, held s' x = held s x) by reflexivity.
    assert (OS : forall g, lookup (open s') g = if g =? f then None else lookup (open s) g).
    { intro g. unfold s'. cbn [open with_open]. apply lookup_erase. }
    assert (MS : made s' = made s) by reflexivity.
    assert (CL : forall i, closes i ((OtherClose f, [Sys CClose f (Some i0)]) :: h) = ((if (i0 =? i)%N then 1 else 0) + closes i h)%nat).
    { intro i. cbn [closes]. unfold closes_in. cbn. destruct (i0 =? i); reflexivity. }
    clearbody s'. split.
    + intro x. rewrite HS. cbn [holds]. specialize (A x). destruct (held s x) as [g|]; [|exact A].
      destruct A as (i & A1 & A2). exists i. split; [|exact A2]. rewrite OS. destruct (N.eqb_spec g f) as [->|]; [congruence|exact A1].
    + intros g i b. rewrite OS, MS. destruct (g =? f); [discriminate|]. apply B.
    + intros g g' i b c. rewrite !OS. destruct (g =? f); [discriminate|]. destruct (g' =? f); [discriminate|]. apply C.
    + intros x y g. rewrite !HS. apply D.
    + intros g i. rewrite OS. destruct (g =? f); [discriminate|]. intro X. destruct (E _ _ X) as (x & Y). exists x. now rewrite HS.
    + intros i X. rewrite CL, MS. destruct (F _ X) as [F1 F2]. split; [exact F1|].
      destruct (N.eqb_spec i0 i) as [->|NE].
      * exfalso. destruct F2 as [[_ (g & F3)]|[_ F3]]; [|exact (F3 _ _ LF)].
        pose proof (C _ _ _ _ _ F3 LF). subst g. congruence.
      * destruct F2 as [[F2 (g & F3)]|[F2 F3]]; [left|right]; (split; [exact F2|]).
        -- exists g. rewrite OS. destruct (N.eqb_spec g f) as [->|]; [congruence|exact F3].
        -- intros g b. rewrite OS. destruct (g =? f); [discriminate|]. apply F3.
    + intros i X. rewrite MS in X. rewrite CL, G by exact X. destruct (N.eqb_spec i0 i) as [->|]; [|reflexivity].
      apply B in LF. lia.
Qed.

(** * The properties *)

Lemma held_open h s a f : history h s -> held s a = Some f -> exists i, file_at s f = Some i /\ holds h a = Some i.
Proof.
  intros H E. pose proof (i_holds _ _ (history_inv _ _ H) a) as A. rewrite E in A. destruct A as (i & O & A).
  exists i. unfold file_at. now rewrite O.
Qed.

Theorem own_file h s o s' out c f x a : history h s -> step s o = Next s' out -> about o = Some a ->
  In (Sys c f x) out -> exists i, x = Some i /\ holds h a = Some i.
Proof.
  intros H S O I.
  assert (K : forall l, held s a = Some f -> (forall e, In e l -> match e with Sys _ g y => g = f /\ y = file_at s f | _ => True end) ->
     In (Sys c f x) l -> exists i, x = Some i /\ holds h a = Some i).
  { intros l HF A J. specialize (A _ J). cbn in A. destruct A as [_ ->]. destruct (held_open _ _ _ _ H HF) as (i & -> & E). now exists i. }
  assert (Z : forall g cs n tl, In (Sys c f x) (repeat (Sys cs g (file_at s g)) n ++ tl) ->
     (forall e, In e tl -> match e with Sys _ g' y => g' = g /\ y = file_at s g | _ => True end) -> f = g /\ x = file_at s g).
  { intros g cs n tl J T. apply in_app_or in J as [J|J]; [apply repeat_spec in J; injection J as _ -> ->; now split|].
    exact (T _ J). }
  assert (Q : forall g, held s a = Some g -> f = g /\ x = file_at s g -> exists i, x = Some i /\ holds h a = Some i).
  { intros g HG [-> ->]. destruct (held_open _ _ _ _ H HG) as (i & -> & E). now exists i. }
  destruct o as [b k|b b'|b l|b l|b k|b l k|b l k|b ok|b|g|g|g]; try discriminate O; injection O as ->; cbn [step] in S.
  - unfold make in S. destruct (has (socks s) a); [discriminate|]. destruct k as [g|].
    + destruct (has (open s) g); [discriminate|]. injection S as <- <-. destruct I as [I|[]]; discriminate.
    + injection S as <- <-. contradiction.
  - unfold recv in S. destruct (lookup (socks s) a) as [[[g|] w]|] eqn:L; [| |discriminate].
    + destruct (settle l) as [[r n]|]; [|discriminate]. injection S as <- <-.
      apply (Q g); [unfold held; now rewrite L|]. apply (Z g CRead (Datatypes.S n) [Returned r] I).
      intros e [<-|[]]. exact Logic.I.
    + injection S as <- <-. destruct I as [I|[]]; discriminate.
  - unfold send in S. destruct (lookup (socks s) a) as [[[g|] w]|] eqn:L; [| |discriminate].
    + destruct (settle l) as [[r n]|]; [|discriminate]. injection S as <- <-.
      apply (Q g); [unfold held; now rewrite L|]. apply (Z g CSend (Datatypes.S n) [Returned r] I).
      intros e [<-|[]]. exact Logic.I.
    + injection S as <- <-. destruct I as [I|[I|[]]]; discriminate.
  - unfold connected in S. destruct (lookup (socks s) a) as [[[g|] w]|] eqn:L; [| |discriminate]; injection S as <- <-.
    + destruct I as [I|[I|[]]]; [|discriminate]. injection I as _ <- <-. apply (Q g); [unfold held; now rewrite L|now split].
    + destruct I as [I|[]]; discriminate.
  - apply close_shape in S as [_ [(_ & _ & ->)|(g & r & n & HA & _ & _ & _ & _ & ->)]]; [contradiction|].
    apply (Q g HA). apply (Z g CShutdown (Datatypes.S n) _ I). intros e [<-|[]]. now split.
  - unfold destroy in S. destruct (close a l k s) as [s1 o1| |] eqn:CL; try discriminate. injection S as <- <-.
    apply close_shape in CL as [_ [(_ & _ & ->)|(g & r & n & HA & _ & _ & _ & _ & ->)]]; [contradiction|].
    apply (Q g HA). apply (Z g CShutdown (Datatypes.S n) _ I). intros e [<-|[]]. now split.
  - unfold watch in S. destruct (lookup (socks s) a) as [[[g|] []]|]; try discriminate; injection S as <- <-;
      destruct I as [I|[]]; discriminate.
  - destruct (has (socks s) a); [|discriminate]. injection S as <- <-. contradiction.
Qed.

Lemma holder h s a i : history h s -> holds h a = Some i -> exists f, held s a = Some f /\ lookup (open s) f = Some (i, false).
Proof.
  intros H E. pose proof (i_holds _ _ (history_inv _ _ H) a) as A. destruct (held s a) as [f|]; [|congruence].
  destruct A as (j & O & A). exists f. split; [reflexivity|]. congruence.
Qed.

Theorem one_holder h s a b i : history h s -> holds h a = Some i -> holds h b = Some i -> a = b.
Proof.
  intros H A B. destruct (holder _ _ _ _ H A) as (f & A1 & A2). destruct (holder _ _ _ _ H B) as (g & B1 & B2).
  pose proof (i_files _ _ (history_inv _ _ H) _ _ _ _ _ A2 B2). subst g. exact (i_one _ _ (history_inv _ _ H) _ _ _ A1 B1).
Qed.

Theorem closed_once h s i : history h s -> born h i ->
  (closes i h = O /\ exists a, holds h a = Some i) \/ (closes i h = 1%nat /\ forall a, holds h a <> Some i).
Proof.
  intros H B. destruct (i_born _ _ (history_inv _ _ H) _ B) as [_ [[C (f & O)]|[C N]]].
  - left. split; [exact C|]. destruct (i_owned _ _ (history_inv _ _ H) _ _ O) as (a & E). exists a.
    pose proof (i_holds _ _ (history_inv _ _ H) a) as A. rewrite E in A. destruct A as (j & O' & A). congruence.
  - right. split; [exact C|]. intros a A. destruct (holder _ _ _ _ H A) as (f & _ & O). exact (N _ _ O).
Qed.

Theorem after_close h s a : history h s -> has (socks s) a = true -> holds h a = None -> forall l k,
  step s (Recv a l) = Next s [Returned (Got 0)]
  /\ (exists s', step s (Send a l) = Next s' [Nowhere CSend; Returned (Failed EBADF)])
  /\ step s (Connected a k) = Next s [Says false] /\ step s (Close a l k) = Next s [].
Proof.
  intros H L N l k. rewrite has_lookup in L. pose proof (i_holds _ _ (history_inv _ _ H) a) as A. unfold held in A.
  cbn [step]. unfold recv, send, connected, close. destruct (lookup (socks s) a) as [[[f|] w]|]; [| |discriminate].
  - cbn [fd] in A. destruct A as (i & _ & A). congruence.
  - repeat split. now eexists.
Qed.

(** ** Callbacks *)

Definition watches (s : state) (a : N) : option N :=
  match lookup (socks s) a with Some (Sock (Some f) true) => Some f | _ => None end.

Record winv (h : list (op * list effect)) (s : state) : Prop := {
  w_table : forall f a, lookup (watched s) f = Some a <-> watches s a = Some f;
  w_asked : forall a, asked h a = true <-> watches s a <> None;
  w_idle : forall a w, lookup (socks s) a = Some (Sock None w) -> w = false }.

Lemma watches_held s a f : watches s a = Some f -> held s a = Some f.
Proof. unfold watches, held. destruct (lookup (socks s) a) as [[[g|] []]|]; intros [= <-]; reflexivity. Qed.

Lemma winv_keep h h' s s' : winv h s -> (forall a, lookup (socks s') a = lookup (socks s) a) -> watched s' = watched s ->
  (forall a, asked h' a = asked h a) -> winv h' s'.
Proof.
  intros [A B C] S W K. assert (E : forall a, watches s' a = watches s a) by (intro a; unfold watches; now rewrite S). split.
  - intros f a. rewrite W, E. apply A.
  - intro a. rewrite K, E. apply B.
  - intros a w. rewrite S. apply C.
Qed.

(** The socket [a] watches nothing any more *)
Lemma winv_stops h h' s s' a : winv h s -> (forall b c f, held s b = Some f -> held s c = Some f -> b = c) ->
  (forall x, watches s' x = if x =? a then None else watches s x) ->
  (forall f, lookup (watched s') f = match watches s a with Some g => if f =? g then None else lookup (watched s) f | None => lookup (watched s) f end) ->
  (forall x w, lookup (socks s') x = Some (Sock None w) -> w = false) ->
  (forall x, asked h' x = if x =? a then false else asked h x) -> winv h' s'.
Proof.
  intros [A B C] ONE S W I K. split; [| |exact I].
  - intros f x. rewrite S, W. destruct (N.eqb_spec x a) as [->|X].
    + split; [|discriminate]. destruct (watches s a) as [g|] eqn:G.
      * destruct (N.eqb_spec f g) as [->|]; [discriminate|]. intro Y. apply A in Y. congruence.
      * intro Y. apply A in Y. congruence.
    + rewrite <- A. destruct (watches s a) as [g|] eqn:G; [|reflexivity].
      destruct (N.eqb_spec f g) as [->|]; [|reflexivity]. split; [discriminate|]. intro Y. apply A in Y. elim X.
      exact (ONE _ _ _ (watches_held _ _ _ Y) (watches_held _ _ _ G)).
  - intro x. rewrite K, S. destruct (x =? a); [split; [discriminate|intro Y; now elim Y]|apply B].
Qed.

Lemma unwatch_socks a s x : lookup (socks (unwatch a s)) x =
  if x =? a then match lookup (socks s) a with Some k => Some (Sock (fd k) false) | None => None end else lookup (socks s) x.
Proof.
  unfold unwatch. destruct (lookup (socks s) a) as [[[f|] []]|] eqn:L; cbn [socks with_socks with_watched]; rewrite ?lookup_put;
    destruct (N.eqb_spec x a) as [->|]; try reflexivity; exact L.
Qed.
Lemma unwatch_watched a s f : lookup (watched (unwatch a s)) f =
  match watches s a with Some g => if f =? g then None else lookup (watched s) f | None => lookup (watched s) f end.
Proof.
  unfold unwatch, watches. destruct (lookup (socks s) a) as [[[g|] []]|]; try reflexivity. cbn [watched with_watched]. apply lookup_erase.
Qed.

Lemma close_watch a l k s s' out : close a l k s = Next s' out ->
  (forall x, lookup (socks s') x = if x =? a then match lookup (socks s) a with Some (Sock None w) => Some (Sock None w) | _ => Some (Sock None false) end else lookup (socks s) x)
  /\ (forall f, lookup (watched s') f = match watches s a with Some g => if f =? g then None else lookup (watched s) f | None => lookup (watched s) f end).
Proof.
  unfold close. destruct (lookup (socks s) a) as [[[f|] w]|] eqn:L; [| |discriminate].
  - destruct (settle l) as [[r n]|]; [|discriminate]. intros [= <- <-]. cbn [socks watched with_errno with_open with_socks]. split.
    + intro x. rewrite lookup_put. destruct (N.eqb_spec x a) as [->|X]; [reflexivity|]. rewrite unwatch_socks.
      destruct (N.eqb_spec x a); [contradiction|reflexivity].
    + intro g. apply unwatch_watched.
  - intros [= <- <-]. split.
    + intro x. destruct (N.eqb_spec x a) as [->|]; [exact L|reflexivity].
    + intro g. unfold watches. now rewrite L.
Qed.

Lemma history_winv h s : history h s -> still h -> winv h s.
Proof.
  induction 1 as [|h s o s' out H IH S]; intro ST.
  { split; [intros f a; split; discriminate|intro a; split; [discriminate|intro X; now elim X]|discriminate]. }
  assert (I : winv h s) by (apply IH; intros e E; apply ST; now right). clear IH.
  pose proof (i_one _ _ (history_inv _ _ H)) as ONE.
  destruct o as [a k|a b|a l|a l|a k|a l k|a l k|a ok|a|f|f|f]; cbn [step] in S.
  - unfold make in S. destruct (has (socks s) a) eqn:HA; [discriminate|].
    rewrite has_lookup in HA. destruct (lookup (socks s) a) eqn:L; [discriminate|].
    assert (NW : watches s a = None) by (unfold watches; now rewrite L).
    assert (G : exists f, (forall x, lookup (socks s') x = if x =? a then Some (Sock f false) else lookup (socks s) x) /\ watched s' = watched s).
    { destruct k as [f|]; [destruct (has (open s) f); [discriminate|]|]; injection S as <- <-; eexists; (split; [|reflexivity]);
        intro x; cbn [socks with_made with_open with_socks with_errno]; apply lookup_put. }
    destruct G as (f & G1 & G2). apply (winv_stops h _ s _ a I ONE).
    + intro x. unfold watches. rewrite G1. destruct (x =? a); [now destruct f|reflexivity].
    + intro g. now rewrite G2, NW.
    + intros x w. rewrite G1. destruct (x =? a); [congruence|apply (w_idle _ _ I)].
    + reflexivity.
  - exfalso. specialize (ST _ (or_introl eq_refl)). discriminate.
  - unfold recv in S. destruct (lookup (socks s) a) as [[[f|] w]|]; [destruct (settle l) as [[r n]|]; [|discriminate]| |discriminate];
      injection S as <- <-; now apply (winv_keep h _ s).
  - unfold send in S. destruct (lookup (socks s) a) as [[[f|] w]|]; [destruct (settle l) as [[r n]|]; [|discriminate]| |discriminate];
      injection S as <- <-; now apply (winv_keep h _ s).
  - unfold connected in S. destruct (lookup (socks s) a) as [[[f|] w]|]; [| |discriminate];
      injection S as <- <-; now apply (winv_keep h _ s).
  - apply close_watch in S as [S1 S2]. apply (winv_stops h _ s _ a I ONE); [|exact S2| |reflexivity].
    + intro x. unfold watches. rewrite S1. destruct (x =? a); [|reflexivity]. now destruct (lookup (socks s) a) as [[[]]|].
    + intros x w. rewrite S1. destruct (N.eqb_spec x a) as [->|]; [|apply (w_idle _ _ I)].
      destruct (lookup (socks s) a) as [[[]]|] eqn:L; try congruence. intros [= <-]. exact (w_idle _ _ I _ _ L).
  - unfold destroy in S. destruct (close a l k s) as [s1 o1| |] eqn:CL; try discriminate. injection S as <- <-.
    apply close_watch in CL as [S1 S2]. apply (winv_stops h _ s _ a I ONE); [|exact S2| |reflexivity].
    + intro x. unfold watches. cbn [socks with_socks]. rewrite lookup_erase, S1. now destruct (x =? a).
    + intros x w. cbn [socks with_socks]. rewrite lookup_erase, S1. destruct (x =? a); [discriminate|apply (w_idle _ _ I)].
  - unfold watch in S. destruct (lookup (socks s) a) as [[[f|] []]|] eqn:L; try discriminate.
    + injection S as <- <-. destruct I as [A B C]. split; [exact A| |exact C]. intro x. cbn [asked].
      destruct (N.eqb_spec x a) as [->|]; [|apply B]. split; [|reflexivity]. intros _. unfold watches. now rewrite L.
    + injection S as <- <-. destruct I as [A B C].
      assert (WS : forall x, watches (with_watched (put (watched s) f a) (with_socks (put (socks s) a (Sock (Some f) true)) s)) x = if x =? a then Some f else watches s x).
      { intro x. unfold watches. cbn [socks with_watched with_socks]. rewrite lookup_put. now destruct (x =? a). }
      split.
      * intros g x. rewrite WS. cbn [watched with_watched]. rewrite lookup_put.
        destruct (N.eqb_spec g f) as [->|NG], (N.eqb_spec x a) as [->|NX].
        -- tauto.
        -- split; [congruence|]. intro Y. elim NX. apply (ONE x a f); [now apply watches_held|]. unfold held. now rewrite L.
        -- split; [|congruence]. intro Y. apply A in Y. unfold watches in Y. rewrite L in Y. discriminate.
        -- apply A.
      * intro x. rewrite WS. cbn [asked]. destruct (x =? a); [split; [discriminate|reflexivity]|apply B].
      * intros x w. cbn [socks with_watched with_socks]. rewrite lookup_put. destruct (x =? a); [discriminate|apply C].
    + exfalso. pose proof (w_idle _ _ I _ _ L). discriminate.
  - destruct (has (socks s) a) eqn:HA; [|discriminate]. injection S as <- <-.
    apply (winv_stops h _ s _ a I ONE).
    + intro x. unfold watches. rewrite unwatch_socks. destruct (x =? a); [|reflexivity]. now destruct (lookup (socks s) a) as [[[]]|].
    + apply unwatch_watched.
    + intros x w. rewrite unwatch_socks. destruct (x =? a); [|apply (w_idle _ _ I)]. destruct (lookup (socks s) a); congruence.
    + reflexivity.
  - unfold ready in S. destruct (lookup (watched s) f); [|discriminate]. destruct (has (socks s) n); [|discriminate].
    injection S as <- <-. now apply (winv_keep h _ s).
  - destruct (has (open s) f); [discriminate|]. injection S as <- <-. now apply (winv_keep h _ s).
  - destruct (lookup (open s) f) as [[i []]|]; try discriminate. injection S as <- <-. now apply (winv_keep h _ s).
Qed.

(** A callback runs for a socket that asked for it, on its own open file *)
Theorem own_callbacks h s f : history h s -> still h ->
  match step s (Ready f) with
  | Next s' out => s' = s /\ exists a i, out = [Called a f] /\ asked h a = true /\ holds h a = Some i /\ file_at s f = Some i
  | Undefined => False
  | Stuck => forall a i, asked h a = true -> holds h a = Some i -> file_at s f <> Some i
  end.
Proof.
  intros H ST. destruct (history_winv _ _ H ST) as [A B _]. cbn [step]. unfold ready.
  destruct (lookup (watched s) f) as [a|] eqn:L.
  - apply A in L. pose proof (watches_held _ _ _ L) as HF.
    assert (has (socks s) a = true) as ->.
    { rewrite has_lookup. unfold watches in L. now destruct (lookup (socks s) a). }
    split; [reflexivity|]. destruct (held_open _ _ _ _ H HF) as (i & E1 & E2). exists a, i. split; [reflexivity|].
    split; [apply B; congruence|]. now split.
  - intros a i E HO FA. destruct (holder _ _ _ _ H HO) as (f' & HF & O). unfold file_at in FA.
    destruct (lookup (open s) f) as [[j b]|] eqn:OF; [|discriminate]. injection FA as ->.
    pose proof (i_files _ _ (history_inv _ _ H) _ _ _ _ _ O OF). subst f'.
    apply B in E. destruct (watches s a) as [g|] eqn:G; [|now elim E].
    pose proof (watches_held _ _ _ G). assert (g = f) by congruence. subst g. apply A in G. congruence.
Qed.

(** ** Connected *)
Theorem connected_exact h s a i k s' out b : history h s -> holds h a = Some i -> (errno s <> EAGAIN \/ k <> Got 0) ->
  (forall n, k = Got n -> n <= 1) -> step s (Connected a k) = Next s' out -> In (Says b) out ->
  (b = true <-> k = Got 1 \/ k = Failed EAGAIN).
Proof.
  intros H HO E LE S I. destruct (holder _ _ _ _ H HO) as (f & HF & _). unfold held in HF. cbn [step] in S. unfold connected in S.
  destruct (lookup (socks s) a) as [[[g|] w]|]; try discriminate. injection S as <- <-.
  destruct I as [I|[I|[]]]; [discriminate|]. injection I as <-. cbn [errno with_errno]. destruct k as [n|e].
  - specialize (LE n eq_refl). assert (n = 0 \/ n = 1) as [-> | ->] by lia; [|split; auto].
    destruct E as [E|E]; [|now elim E]. apply N.eqb_neq in E. rewrite E. split; [discriminate|]. intros [X|X]; discriminate.
  - split.
    + intro X. apply N.eqb_eq in X. subst e. now right.
    + intros [X|X]; [discriminate|]. injection X as ->. reflexivity.
Qed.

(** ** Connecting *)
Lemma waited w f : f <> 0 -> n_host w = true ->
  match settle (n_poll w) with
  | None => Waiting
  | Some (Got 0, _) | Some (Failed _, _) => Closed
  | Some (Got _, _) => if negb (n_peer w) then Closed else if negb (n_option w) || negb (n_error w =? 0) then Closed else Open f
  end = Open f <-> (exists n k, settle (n_poll w) = Some (Got (N.succ n), k)) /\ n_peer w = true /\ n_option w = true /\ n_error w = 0.
Proof.
  intros _ _. destruct (settle (n_poll w)) as [[[[|p]|e] k]|].
  - split; [discriminate|]. intros [(n & j & E) _]. injection E as E _. lia.
  - destruct (n_peer w), (n_option w), (N.eqb_spec (n_error w) 0); cbn; split; try discriminate; try (intros (_ & ? & ? & ?); congruence).
    intros _. split; [|auto]. exists (N.pred (N.pos p)), k. rewrite N.succ_pred; [reflexivity|discriminate].
  - split; [discriminate|]. intros [(n & j & E) _]. discriminate.
  - split; [discriminate|]. intros [(n & j & E) _]. discriminate.
Qed.

Theorem connects w f : f <> 0 -> (connect w = Open f <-> n_socket w = Some f /\ established w).
Proof.
  intro NZ. unfold connect, established. destruct (n_socket w) as [g|]; [|split; [discriminate|intros [X _]; discriminate]].
  destruct (N.ltb_spec g 1) as [LT|GE].
  { split; [intros [= ->]; lia|]. intros [[= ->] _]. lia. }
  destruct (n_host w) eqn:HO; cbn [negb]; [|split; [discriminate|intros (_ & _ & X & _); discriminate]].
  assert (OPEN : match settle (n_poll w) with
    | None => Waiting
    | Some (Got 0, _) | Some (Failed _, _) => Closed
    | Some (Got _, _) => if negb (n_peer w) then Closed else if negb (n_option w) || negb (n_error w =? 0) then Closed else Open g
    end = Open f -> g = f).
  { destruct (settle (n_poll w)) as [[[[|p]|e] k]|]; try discriminate. destruct (n_peer w), (n_option w), (n_error w =? 0); cbn; congruence. }
  pose proof (waited w g) as WT. specialize (WT ltac:(lia) HO).
  destruct (n_connect w) as [n|e].
  - split.
    + intro X. pose proof (OPEN X). subst g. apply WT in X as (P & Q). repeat split; try tauto; eauto.
    + intros ([= ->] & _ & _ & _ & Q). now apply WT.
  - destruct ((e =? EAGAIN) || (e =? EINPROGRESS)) eqn:B.
    + split.
      * intro X. pose proof (OPEN X). subst g. apply WT in X as (P & Q). repeat split; try tauto; [eauto|].
        exists e. left. split; [reflexivity|]. apply orb_true_iff in B as [B|B]; apply N.eqb_eq in B; auto.
      * intros ([= ->] & _ & _ & _ & Q). now apply WT.
    + split; [discriminate|]. intros (_ & _ & _ & (e' & [([= ->] & X)|X]) & _); [|discriminate].
      exfalso. apply orb_false_iff in B as [B1 B2]. apply N.eqb_neq in B1, B2. tauto.
Qed.

Theorem connects_interrupted : forall n, exists w, settle (n_poll w) = Some (Got 0, n) /\ connect w = Closed.
Proof.
  intro n. exists (Network (Some 3) true (Failed EINPROGRESS) (repeat (Failed EINTR) n ++ [Got 0]) true true 0).
  assert (E : settle (repeat (Failed EINTR) n ++ [Got 0]) = Some (Got 0, n)).
  { induction n as [|n IH]; [reflexivity|]. cbn [repeat app settle]. rewrite IH. reflexivity. }
  split; [exact E|]. unfold connect. cbn [n_socket n_host n_connect n_poll]. rewrite E. reflexivity.
Qed.

(** ** Interrupted calls *)
Theorem interrupted l r n : settle l = Some (r, n) <-> l = repeat (Failed EINTR) n ++ [r] /\ r <> Failed EINTR.
Proof.
  revert n. induction l as [|a l IH]; intro n.
  - split; [discriminate|]. intros [E _]. destruct n; discriminate.
  - cbn [settle].
    assert (LAST : forall b, b <> Failed EINTR -> (match l with [] => Some (b, O) | _ => None end = Some (r, n) <-> b :: l = repeat (Failed EINTR) n ++ [r] /\ r <> Failed EINTR)).
    { intros b NB. destruct l as [|c l'].
      - split; [intros [= <- <-]; now split|]. intros [E _]. destruct n as [|n]; [injection E as <-; reflexivity|]. injection E as E _. now elim NB.
      - split; [discriminate|]. intros [E _]. destruct n as [|n]; [discriminate|]. injection E as E _. now elim NB. }
    destruct a as [m|e]; [now apply LAST|]. destruct (N.eqb_spec e EINTR) as [->|NE]; [|apply LAST; congruence].
    destruct (settle l) as [[r' n']|] eqn:SL.
    + destruct n as [|n].
      * split; [discriminate|]. intros [E NR]. injection E as E _. now elim NR.
      * split.
        -- intros [= -> ->]. destruct (proj1 (IH n) eq_refl) as [-> NR]. now split.
        -- intros [E NR]. injection E as E. pose proof (proj2 (IH n) (conj E NR)) as X. injection X as -> ->. reflexivity.
    + split; [discriminate|]. intros [E NR]. destruct n as [|n]; [injection E as E _; now elim NR|]. injection E as E.
      pose proof (proj2 (IH n) (conj E NR)). discriminate.
Qed.
