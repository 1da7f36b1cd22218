(** Histories of an LE controller, for the statements of properties: the latest
    step comes first. *)
From Verif Require Import Prelude Address Rpa Table LeTypes LeAdvertise LeLists LeScan LeInitiate LeHost.
Open Scope N_scope.

(** One step of a history: when, what, the status returned by a command, what was sent *)
Record entry := Entry { at_time : N; what : op; status_of : option status; sent : list output }.

Section WithController.
Variable aes : list N -> list N -> list N.
Variable rng : N -> N.
Variable cfg : config.

(** [history h s]: a controller just powered on which went through [h] is in state [s] *)
Inductive history : list entry -> le -> Prop :=
| power_on : forall addr, history [] (new_le addr)
| next_step : forall h s now o s' st out,
    history h s -> step aes rng cfg now s o = Ok s' st out ->
    history (Entry now o st out :: h) s'.

(** The history of a list of steps; [None] as soon as one aborts, goes out of bounds
    or hangs *)
Fixpoint play (h : list entry) (s : le) (ops : list (N * op)) : option (list entry * le) :=
  match ops with
  | [] => Some (h, s)
  | (now, o) :: ops =>
      match step aes rng cfg now s o with
      | Ok s st out => play (Entry now o st out :: h) s ops
      | _ => None
      end
  end.

Lemma play_history : forall ops h s h' s', history h s -> play h s ops = Some (h', s') -> history h' s'.
Proof.
  induction ops as [|[now o] ops IH]; cbn [play]; intros h s h' s' H P.
  - now injection P as <- <-.
  - destruct (step aes rng cfg now s o) as [s1 st out| | |] eqn:E; try discriminate.
    eapply IH; [|exact P]. eapply next_step; eassumption.
Qed.

Lemma history_reachable : forall s, reachable aes rng cfg s <-> exists h, history h s.
Proof.
  intros s. split.
  - intros (addr & ops & o & R).
    assert (forall ops h s0 o, history h s0 -> run aes rng cfg s0 ops = Some (s, o) -> exists h, history h s) as G.
    { clear. induction ops as [|[now op] ops IH]; cbn [run]; intros h s0 o H R.
      - injection R as <- <-. eauto.
      - destruct (step aes rng cfg now s0 op) as [s1 st out| | |] eqn:E; try discriminate.
        destruct (run aes rng cfg s1 ops) as [[s2 o2]|] eqn:E2; [|discriminate]. injection R as <- <-.
        eapply IH; [|exact E2]. eapply next_step; eassumption. }
    exact (G ops [] (new_le addr) o (power_on addr) R).
  - intros (h & H). induction H as [addr|h s now o s' st out H (addr & ops & o' & R) S].
    + exists addr, [], []. reflexivity.
    + exists addr, (ops ++ [(now, o)]), (o' ++ out).
      assert (forall ops s0 o1, run aes rng cfg s0 ops = Some (s, o1) ->
                run aes rng cfg s0 (ops ++ [(now, o)]) = Some (s', o1 ++ out)) as G.
      { clear - S. induction ops as [|[n p] ops IH]; cbn [run app]; intros s0 o1 R.
        - injection R as <- <-. rewrite S. now rewrite app_nil_r.
        - destruct (step aes rng cfg n s0 p) as [s1 st1 out1| | |]; try discriminate.
          destruct (run aes rng cfg s1 ops) as [[s2 o2]|] eqn:E2; [|discriminate]. injection R as <- <-.
          rewrite (IH _ _ E2). now rewrite app_assoc. }
      exact (G _ _ _ R).
Qed.

End WithController.

(** controller_properties.h:146-192, controller_properties.cc:103-130: the default
    properties *)
Definition default_config : config := Config 16 512 16 16 8 7 true true false false.
