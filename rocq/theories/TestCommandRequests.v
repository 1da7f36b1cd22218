(** Proofs that each command does what its text asks for. *)
From Coq Require Import String.
From Verif Require Import Prelude Table Address AddressSpec AddressProofs PhyModel PhyModelSpec TestCommand TestCommandProofs TestCommandSpec.
Open Scope N_scope.

Lemma writes_read t v : writes t v -> to_id (parse_int t) = v.
Proof. intros (D & Z & B). now apply parse_decimal. Qed.
Lemma writes_period t v : writes t v -> parse_int t = v.
Proof. intros (D & Z & B). now apply parse_int_decimal. Qed.
Lemma documented_into t a o : documented t a -> snd (from_string_into t o) = a.
Proof. intros D. apply documented_accepted in D. unfold from_string_into. now rewrite D. Qed.
Lemma request_done name args e : requests name args e -> handle name args = Ok e [Done].
Proof.
  intros R. destruct R; unfold handle;
  repeat match goal with |- context [list_eqb (str ?a) (str ?b)] =>
    let r := eval vm_compute in (list_eqb (str a) (str b)) in change (list_eqb (str a) (str b)) with r end; cbv beta iota zeta;
  repeat match goal with H : writes ?t ?d |- context [to_id (parse_int ?t)] => rewrite (writes_read t d H) end; try reflexivity.
  - erewrite documented_into by eassumption. reflexivity.
  - rewrite (writes_period _ _ H). destruct (N.eqb_spec p 0); [contradiction|reflexivity].
Qed.

Example requests_demo : requests (str "add_device_to_phy") [str "12"; str "0"] [ETopology (AddToPhy 12 0)].
Proof.
  apply r_attach; (split; [|split; [|reflexivity]]); try (cbn; discriminate); try (intros _; reflexivity).
  - change (str "12") with ([48 + 1] ++ [48 + 2]). change 12 with (10 * 1 + 2). apply dec_more; [|reflexivity]. now apply dec_one.
  - change (str "0") with [48 + 0]. now apply dec_one.
Qed.
