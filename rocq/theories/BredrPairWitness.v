(** Concrete runs of two BR/EDR controllers. *)
From Coq Require Import Permutation.
From Verif Require Import Prelude Table Sco Bredr BredrBase BredrSpec BredrPairSpec BredrWitness.
Open Scope N_scope.

(** A side does an operation of its own, or hears the next packet of the other *)
Inductive deed := Do (d : side) (now : N) (o : op) | Hear (d : side) (now rssi : N).

Section Perform.
Variables (order1 order2 : table sco_link -> table sco_link) (cfg1 cfg2 : config) (a b : addr).
Variable keep : world -> bool.

Definition foreignb (peer : addr) (o : op) : bool :=
  match o with Receive _ p => negb (list_eqb (source p) peer) && negb (list_eqb (source p) empty_address) | _ => true end.
Lemma foreignb_ok : forall peer o, foreignb peer o = true -> foreign peer o.
Proof.
  intros peer [c|h pb bc d|h d|rssi p|]; cbn; auto. intros H. apply andb_true_iff in H. destruct H as (A & B). apply negb_true_iff in A, B.
  split; intros E; rewrite E, list_eqb_refl in *; discriminate.
Qed.
Definition later (now : N) (h : list entry) : bool := forallb (fun e => at_time e <=? now) h.
Definition next (w : world) (x : deed) : option (side * entry * world) :=
  match x with
  | Do Left now o =>
      if foreignb b o then
        match step order1 cfg1 now (left w) o with
        | Ok (s, st, out) => Some (Left, Entry now o st out, World s (right w) (to_right w ++ filter (addressed b) (packets out)) (to_left w))
        | _ => None
        end
      else None
  | Do Right now o =>
      if foreignb a o then
        match step order2 cfg2 now (right w) o with
        | Ok (s, st, out) => Some (Right, Entry now o st out, World (left w) s (to_right w) (to_left w ++ filter (addressed a) (packets out)))
        | _ => None
        end
      else None
  | Hear Left now rssi =>
      match to_left w with
      | p :: l =>
          match step order1 cfg1 now (left w) (Receive rssi p) with
          | Ok (s, st, out) => Some (Left, Entry now (Receive rssi p) st out, World s (right w) (to_right w ++ filter (addressed b) (packets out)) l)
          | _ => None
          end
      | [] => None
      end
  | Hear Right now rssi =>
      match to_right w with
      | p :: l =>
          match step order2 cfg2 now (right w) (Receive rssi p) with
          | Ok (s, st, out) => Some (Right, Entry now (Receive rssi p) st out, World (left w) s l (to_left w ++ filter (addressed a) (packets out)))
          | _ => None
          end
      | [] => None
      end
  end.
Fixpoint perform (hl hr nl nr : list entry) (w : world) (l : list deed) : option (list entry * list entry * world) :=
  match l with
  | [] => Some (nl, nr, w)
  | x :: l =>
      match next w x with
      | Some (Left, e, w') => if keep w' && later (at_time e) (nl ++ hl) then perform hl hr (e :: nl) nr w' l else None
      | Some (Right, e, w') => if keep w' && later (at_time e) (nr ++ hr) then perform hl hr nl (e :: nr) w' l else None
      | None => None
      end
  end.
Lemma next_moves : forall w x d e w', next w x = Some (d, e, w') -> moves order1 order2 cfg1 cfg2 a b w d e w'.
Proof.
  intros w x d e w' H. destruct x as [[] now o|[] now rssi]; cbn [next] in H.
  - destruct (foreignb b o) eqn:F; [|discriminate]. destruct (step order1 cfg1 now (left w) o) as [[[s st] out]| | |] eqn:E; try discriminate. injection H as <- <- <-.
    apply left_acts; auto. now apply foreignb_ok.
  - destruct (foreignb a o) eqn:F; [|discriminate]. destruct (step order2 cfg2 now (right w) o) as [[[s st] out]| | |] eqn:E; try discriminate. injection H as <- <- <-.
    apply right_acts; auto. now apply foreignb_ok.
  - destruct (to_left w) as [|p l] eqn:L; [discriminate|]. destruct (step order1 cfg1 now (left w) _) as [[[s st] out]| | |] eqn:E; try discriminate. injection H as <- <- <-. now apply left_hears.
  - destruct (to_right w) as [|p l] eqn:L; [discriminate|]. destruct (step order2 cfg2 now (right w) _) as [[[s st] out]| | |] eqn:E; try discriminate. injection H as <- <- <-. now apply right_hears.
Qed.
Lemma later_timely : forall e h, later (at_time e) h = true -> timely h -> timely (e :: h).
Proof. intros e h L T. split; auto. intros x I. unfold later in L. rewrite forallb_forall in L. now apply N.leb_le, L. Qed.
Variable K : world -> Prop.
Hypothesis kept : forall w, keep w = true -> K w.
Lemma reaches_timely : forall hl hr w, reaches order1 order2 cfg1 cfg2 a b hl hr w -> timely hl /\ timely hr.
Proof. intros hl hr w R. induction R as [|hl hr w e w' R (A & B) M T|hl hr w e w' R (A & B) M T]; repeat split; auto; apply T. Qed.
Lemma meanwhile_timely : forall hl hr w0 nl nr w, meanwhile order1 order2 cfg1 cfg2 a b K hl hr w0 nl nr w -> timely (nl ++ hl) /\ timely (nr ++ hr).
Proof. intros hl hr w0 nl nr w M. induction M as [R H|nl nr w e w' M (A & B) MV T KW|nl nr w e w' M (A & B) MV T KW]; auto. eapply reaches_timely; eauto. Qed.
Theorem perform_meanwhile : forall l hl hr w0 nl nr w nl' nr' w', meanwhile order1 order2 cfg1 cfg2 a b K hl hr w0 nl nr w ->
  perform hl hr nl nr w l = Some (nl', nr', w') -> meanwhile order1 order2 cfg1 cfg2 a b K hl hr w0 nl' nr' w'.
Proof.
  induction l as [|x l IH]; intros hl hr w0 nl nr w nl' nr' w' M P; cbn [perform] in P; [injection P as <- <- <-; exact M|].
  destruct (next w x) as [[[d e] w1]|] eqn:E; [|discriminate]. apply next_moves in E. destruct (meanwhile_timely _ _ _ _ _ _ M) as (T1 & T2).
  destruct d.
  - destruct (keep w1) eqn:KW; [|discriminate]. destruct (later (at_time e) (nl ++ hl)) eqn:LT; [|discriminate]. cbn [andb] in P.
    eapply IH; [|exact P]. eapply left_goes; eauto. now apply later_timely.
  - destruct (keep w1) eqn:KW; [|discriminate]. destruct (later (at_time e) (nr ++ hr)) eqn:LT; [|discriminate]. cbn [andb] in P.
    eapply IH; [|exact P]. eapply right_goes; eauto. now apply later_timely.
Qed.
End Perform.

Lemma meanwhile_whole : forall o1 o2 c1 c2 a b K w0 nl nr w, meanwhile o1 o2 c1 c2 a b K [] [] w0 nl nr w -> reaches o1 o2 c1 c2 a b nl nr w.
Proof.
  intros o1 o2 c1 c2 a b K w0 nl nr w M. induction M as [R H|nl nr w e w' M IH MV T KW|nl nr w e w' M IH MV T KW]; auto.
  - rewrite app_nil_r in T. eapply left_moves; eauto.
  - rewrite app_nil_r in T. eapply right_moves; eauto.
Qed.
Theorem perform_reaches : forall o1 o2 c1 c2 a b l nl nr w,
  perform o1 o2 c1 c2 a b (fun _ => true) [] [] [] [] (World (new_bredr a) (new_bredr b) [] []) l = Some (nl, nr, w) -> reaches o1 o2 c1 c2 a b nl nr w.
Proof.
  intros o1 o2 c1 c2 a b l nl nr w P. eapply (meanwhile_whole o1 o2 c1 c2 a b (fun _ => True)). eapply perform_meanwhile; [|apply at_first|exact P]; auto. apply together.
Qed.

(** The left one connects; the right one, which scans, accepts *)
Definition your_config : config := Config [0x87; 0x5; 0x9] 12 7 15 1.
Definition connected : list deed :=
  [Do Right 0 (Command (WriteScanEnable true true)); Do Left 0 (Command (CreateConnection you 1)); Do Left 1000000 Tick; Do Left 1001000 Tick; Hear Right 1002000 0;
   Do Right 1003000 (Command (AcceptConnection me false)); Do Right 1004000 Tick; Hear Left 1005000 0].
