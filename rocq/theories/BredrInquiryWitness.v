(** Runs of controllers that search for devices. *)
From Coq Require Import Permutation.
From Verif Require Import Prelude Table Sco Bredr BredrBase BredrSpec BredrPairSpec BredrInquirySpec BredrWitness BredrPairWitness.
Open Scope N_scope.

Local Notation start := (World (new_bredr me) (new_bredr you) [] []).
Local Notation go keep := (perform same_order same_order some_config your_config me you keep).

Definition sightb (visible : bool) (codes : list N) (cls : N) (w : world) : bool :=
  Bool.eqb (inquiry_scan_enable (right w)) visible && list_eqb (iac (right w)) codes && (class (right w) =? cls) && list_eqb (eir (right w)) (repeat 0 240) &&
  unmasked (left w) 0x02 && unmasked (left w) 0x22.
Lemma sightb_ok : forall visible codes cls w, sightb visible codes cls w = true -> in_sight visible codes cls (repeat 0 240) w.
Proof.
  intros visible codes cls w H. unfold sightb in H. do 5 (apply andb_true_iff in H; destruct H as (H & ?)).
  split; [now apply Bool.eqb_prop|]. split; [now apply list_eqb_eq|]. split; [now apply N.eqb_eq|]. split; [now apply list_eqb_eq|]. split; assumption.
Qed.

(** The right one can be found *)
Definition visible_you : list deed :=
  [Do Right 0 (Command (WriteScanEnable true false)); Do Right 0 (Command (WriteClass 0x5a)); Do Left 0 (Command (WriteInquiryMode 1)); Do Left 0 (Command (SetEventMask 0xffffffffffff))].
(** Two packets are answered, a third one is not sent since the inquiry is over *)
Definition search_run : list deed :=
  [Do Left 10 (Command (Inquire 0x33 5 0)); Do Left 20 (Command (Inquire 0x33 5 0)); Do Left 1000000 Tick; Do Left 2000010 Tick; Do Left 2100000 Tick; Hear Right 2100001 0xc4; Do Right 2100002 Tick; Hear Left 2100003 0;
   Do Left 3900000 Tick; Do Left 4100000 Tick; Do Left 4100001 Tick; Hear Right 4100002 0xd0; Do Right 4100003 Tick; Hear Left 4100004 0; Do Left 6400010 Tick; Do Left 7000000 (Command InquiryCancel)].
Lemma perm_same : forall t, Permutation (same_order t) t.
Proof. intros t. apply Permutation_refl. Qed.

Theorem inquiry_witness : exists hl hr w0 nl nr w,
  meanwhile same_order same_order some_config your_config me you (in_sight true [0x33] 0x5a (repeat 0 240)) hl hr w0 nl nr w /\
  still_asked you w0 = [] /\ to_be_told me you w0 = [] /\ still_asked you w = [] /\ to_be_told me you w = [] /\
  map asked_at (probes (nl ++ hl)) = [2000010; 4100000] /\
  results you nl = [InquiryResult 1 you 0 0x5a 0 0xc4 []; InquiryResult 1 you 0 0x5a 0 0xd0 []] /\
  sum starts nl = 1%nat /\ sum finishes nl = 1%nat /\ Forall keeps_complete (nl ++ hl) /\
  flat_map (fun e => match what e with Command (Inquire _ _ _) | Command InquiryCancel => match status_of e with Some st => [st] | None => [] end | _ => [] end) (rev nl) = [SUCCESS; DISALLOWED; DISALLOWED].
Proof.
  destruct (go (fun _ => true) [] [] [] [] start visible_you) as [[[hl hr] w0]|] eqn:P1; [|vm_compute in P1; discriminate].
  destruct (go (sightb true [0x33] 0x5a) hl hr [] [] w0 search_run) as [[[nl nr] w]|] eqn:P2; [|vm_compute in P1; injection P1 as <- <- <-; vm_compute in P2; discriminate].
  exists hl, hr, w0, nl, nr, w. pose proof (perform_reaches _ _ _ _ _ _ _ _ _ _ P1) as R. split.
  - eapply perform_meanwhile; [apply sightb_ok| |exact P2]. apply at_first; auto. apply sightb_ok. vm_compute in P1. injection P1 as <- <- <-. reflexivity.
  - vm_compute in P1. injection P1 as <- <- <-. vm_compute in P2. injection P2 as <- <- <-. repeat split; try reflexivity. repeat constructor.
Qed.

(** A visible device is not found by an inquiry of 1.28 s, though the inquiry is carried to its end *)
Definition short_run : list deed :=
  [Do Left 10 (Command (Inquire 0x33 1 0)); Do Left 100000 Tick; Do Left 500000 Tick; Do Left 1000000 Tick; Do Left 1280009 Tick; Do Left 1280010 Tick; Do Left 3000000 Tick].
Theorem short_misses : exists hl hr w0 nl nr w,
  meanwhile same_order same_order some_config your_config me you (in_sight true [0x33] 0x5a (repeat 0 240)) hl hr w0 nl nr w /\
  still_asked you w = [] /\ to_be_told me you w = [] /\ sum starts nl = 1%nat /\ sum finishes nl = 1%nat /\ results you nl = [] /\
  exists e, In e nl /\ what e = Command (Inquire 0x33 1 0).
Proof.
  destruct (go (fun _ => true) [] [] [] [] start visible_you) as [[[hl hr] w0]|] eqn:P1; [|vm_compute in P1; discriminate].
  destruct (go (sightb true [0x33] 0x5a) hl hr [] [] w0 short_run) as [[[nl nr] w]|] eqn:P2; [|vm_compute in P1; injection P1 as <- <- <-; vm_compute in P2; discriminate].
  exists hl, hr, w0, nl, nr, w. pose proof (perform_reaches _ _ _ _ _ _ _ _ _ _ P1) as R. split.
  - eapply perform_meanwhile; [apply sightb_ok| |exact P2]. apply at_first; auto. apply sightb_ok. vm_compute in P1. injection P1 as <- <- <-. reflexivity.
  - vm_compute in P1. injection P1 as <- <- <-. vm_compute in P2. injection P2 as <- <- <-. repeat split; try reflexivity. eexists. split; [do 6 right; left; reflexivity|reflexivity].
Qed.

(** The number of responses asked for is exceeded *)
Definition many_run : list deed :=
  [Do Left 10 (Command (Inquire 0x33 5 1)); Do Left 2000010 Tick; Do Left 2100000 Tick; Hear Right 2100001 0xc4; Do Right 2100002 Tick; Hear Left 2100003 0;
   Do Left 4100000 Tick; Do Left 4100001 Tick; Hear Right 4100002 0xd0; Do Right 4100003 Tick; Hear Left 4100004 0].
Theorem too_many : exists hl hr w, reaches same_order same_order some_config your_config me you hl hr w /\
  (forall e lap len num, In e hl -> what e = Command (Inquire lap len num) -> num = 1) /\ sum starts hl = 1%nat /\
  List.length (results you hl) = 2%nat.
Proof.
  destruct (go (fun _ => true) [] [] [] [] start (visible_you ++ many_run)) as [[[hl hr] w]|] eqn:P1; [|vm_compute in P1; discriminate].
  exists hl, hr, w. pose proof (perform_reaches _ _ _ _ _ _ _ _ _ _ P1) as R. split; [exact R|]. vm_compute in P1. injection P1 as <- <- <-.
  split; [|split; reflexivity]. intros e lap len num I W. cbn in I. repeat (destruct I as [<-|I]; [try discriminate W|]); [|destruct I]. now injection W as _ _ <-.
Qed.

(** A result after the inquiry was cancelled *)
Definition late_run : list deed :=
  [Do Left 10 (Command (Inquire 0x33 5 0)); Do Left 2000010 Tick; Do Left 2100000 Tick; Hear Right 2100001 0xc4; Do Right 2100002 Tick; Do Left 2100003 (Command InquiryCancel); Hear Left 2100004 0].
Theorem too_late : exists e hl hr w, reaches same_order same_order some_config your_config me you (e :: hl) hr w /\
  searching hl = None /\ results_in you (sent e) <> [].
Proof.
  destruct (go (fun _ => true) [] [] [] [] start (visible_you ++ late_run)) as [[[hl hr] w]|] eqn:P1; [|vm_compute in P1; discriminate].
  destruct hl as [|e hl]; [vm_compute in P1; discriminate|]. exists e, hl, hr, w. pose proof (perform_reaches _ _ _ _ _ _ _ _ _ _ P1) as R. split; [exact R|].
  vm_compute in P1. injection P1 as <- <- <-. split; [reflexivity|]. discriminate.
Qed.
