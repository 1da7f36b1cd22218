From Verif Require Import Prelude PcapFilter PcapFilterSpec PcapFilterProofs Sniffer SnifferSpec.
Open Scope N_scope.
Ltac Zify.zify_post_hook ::= Z.div_mod_to_equations.

Lemma le_length n : forall x, length (le n x) = n.
Proof. induction n; intros x; cbn; [reflexivity|now rewrite IHn]. Qed.

Lemma from_le_le n : forall x, from_le (le n x) = x mod 256 ^ N.of_nat n.
Proof.
  induction n as [|n IH]; intros x; cbn [le from_le].
  - symmetry. apply N.mod_1_r.
  - rewrite IH. replace (N.of_nat (S n)) with (N.succ (N.of_nat n)) by lia.
    rewrite N.pow_succ_r', N.mod_mul_r; [reflexivity|lia|].
    apply N.pow_nonzero. lia.
Qed.

Lemma from_le_le4 x : x < 4294967296 -> from_le (le 4 x) = x.
Proof. intros H. rewrite from_le_le. apply N.mod_small. exact H. Qed.

(** The content recorded for a passage *)
Definition record_of (p : passage) (content : list N) : list N :=
  write_record_header (p_time p) (5 + lenN (p_packet p)) ++
  [0; 0; 0; direction_byte (p_dir p)] ++ [p_type p] ++ content.

Definition contents (f : option name_map) (ps : list passage) : option (option name_map * list (list N)) :=
  match f with
  | None => Some (None, map p_packet ps)
  | Some m =>
      match filter_all m (map (fun p => (p_packet p, p_type p)) ps) with
      | None => None
      | Some (m', os) => Some (Some m', os)
      end
  end.

Definition handed_on (ps : list passage) := map (fun p => (p_dir p, p_type p, p_packet p)) ps.

Lemma pass_all_output ps : forall out f s' os,
  pass_all {| output := Some out; filter_state := f |} ps = Some (s', os) ->
  os = handed_on ps /\
  exists f' cs, contents f ps = Some (f', cs) /\ length cs = length ps /\
  s' = {| output := Some (out ++ concat (map (fun pc => record_of (fst pc) (snd pc)) (combine ps cs)));
          filter_state := f' |}.
Proof.
  induction ps as [|p ps IH]; intros out f s' os; cbn [pass_all].
  { intros [= <- <-]. split; [reflexivity|]. destruct f as [m|].
    - exists (Some m), []. cbn. now rewrite app_nil_r.
    - exists None, []. cbn. now rewrite app_nil_r. }
  unfold pass, append_record. cbn [output filter_state].
  change (4 + 1 + lenN (p_packet p)) with (5 + lenN (p_packet p)).
  destruct f as [m|].
  - destruct (filter_hci_packet m (p_packet p) (p_type p)) as [[m1 o]|] eqn:E1; [|discriminate].
    destruct (pass_all _ ps) as [[s2 os']|] eqn:E2; [|discriminate]. intros [= <- <-].
    apply IH in E2 as (-> & f' & cs & C & L & ->). split; [reflexivity|].
    exists f', (o :: cs). cbn [contents map] in *. split; [|split; [cbn; now rewrite L|]].
    + cbn [filter_all]. rewrite E1.
      destruct ps; cbn [contents map] in C;
        destruct (filter_all m1 _) as [[m2 os]|]; try discriminate; injection C as <- <-; reflexivity.
    + cbn [combine map concat fst snd]. f_equal. f_equal. unfold record_of.
      rewrite <- !app_assoc. reflexivity.
  - destruct (pass_all _ ps) as [[s2 os']|] eqn:E2; [|discriminate]. intros [= <- <-].
    apply IH in E2 as (-> & f' & cs & C & L & ->). split; [reflexivity|].
    exists f', (p_packet p :: cs). cbn [contents map] in *. split; [|split; [cbn; now rewrite L|]].
    + destruct ps; cbn [contents map] in C; injection C as <- <-; reflexivity.
    + cbn [combine map concat fst snd]. f_equal. f_equal. unfold record_of.
      rewrite <- !app_assoc. reflexivity.
Qed.

Definition expected (p : passage) (c : list N) : record :=
  {| r_sec := (p_time p / 1000000) mod 4294967296;
     r_usec := p_time p mod 1000000 / 1000;
     r_dir := direction_byte (p_dir p); r_type := p_type p; r_bytes := c |}.

Lemma firstn_len4 {A} (a b : list A) n : length a = n -> firstn n (a ++ b) = a.
Proof. intros <-. now apply firstn_app_exact. Qed.
Lemma skipn_len4 {A} (a b : list A) n : length a = n -> skipn n (a ++ b) = b.
Proof. intros <-. now apply skipn_len. Qed.

Lemma read_one f p c rest :
  5 + lenN (p_packet p) < 4294967296 -> length c = length (p_packet p) ->
  read_records (S f) (record_of p c ++ rest) =
  match read_records f rest with Some rs => Some (expected p c :: rs) | None => None end.
Proof.
  intros Hl Hc. unfold record_of, write_record_header. rewrite <- !app_assoc.
  set (a := le 4 (p_time p / 1000000)). set (b := le 4 (p_time p mod 1000000 / 1000)).
  set (n := le 4 (5 + lenN (p_packet p))).
  set (data := [0; 0; 0; direction_byte (p_dir p)] ++ [p_type p] ++ c ++ rest).
  assert (La : length a = 4%nat) by apply le_length.
  assert (Lb : length b = 4%nat) by apply le_length.
  assert (Ln : length n = 4%nat) by apply le_length.
  assert (H16 : length (a ++ b ++ n ++ n) = 16%nat) by (rewrite !app_length; lia).
  assert (S4 : skipn 4 (a ++ b ++ n ++ n ++ data) = b ++ n ++ n ++ data) by now apply skipn_len4.
  assert (S8 : skipn 8 (a ++ b ++ n ++ n ++ data) = n ++ n ++ data).
  { rewrite (app_assoc a b). apply skipn_len4. rewrite app_length. lia. }
  assert (S12 : skipn 12 (a ++ b ++ n ++ n ++ data) = n ++ data).
  { rewrite (app_assoc b n), (app_assoc a (b ++ n)). apply skipn_len4. rewrite !app_length. lia. }
  assert (S16 : skipn 16 (a ++ b ++ n ++ n ++ data) = data).
  { rewrite (app_assoc n n), (app_assoc b (n ++ n)), (app_assoc a). now apply skipn_len4. }
  remember (a ++ b ++ n ++ n ++ data) as l eqn:El.
  assert (Hlen : (16 <= length l)%nat) by (subst l; rewrite !app_length; lia).
  assert (F4 : firstn 4 l = a) by (subst l; now apply firstn_len4).
  destruct l as [|x l']; [cbn in Hlen; lia|]. remember (x :: l') as l eqn:El2.
  replace (read_records (S f) l) with
   (if Nat.ltb (length l) 16 then None
          else
            let sec := from_le (firstn 4 l) in
            let usec := from_le (firstn 4 (skipn 4 l)) in
            let incl := N.to_nat (from_le (firstn 4 (skipn 8 l))) in
            let orig := N.to_nat (from_le (firstn 4 (skipn 12 l))) in
            let data := skipn 16 l in
            if negb (Nat.eqb incl orig) || Nat.ltb (length data) incl then None
            else
              match read_body sec usec (firstn incl data), read_records f (skipn incl data) with
              | Some r, Some rs => Some (r :: rs)
              | _, _ => None
              end) by (rewrite El2; reflexivity).
  destruct (Nat.ltb_spec (length l) 16) as [K|_]; [lia|].
  rewrite S4, S8, S12, S16, F4. rewrite !firstn_len4 by assumption.
  assert (Hn : N.to_nat (from_le n) = (5 + length c)%nat).
  { unfold n. rewrite from_le_le4 by exact Hl. unfold lenN. lia. }
  cbv zeta. rewrite !Hn, Nat.eqb_refl. cbn [negb orb].
  assert (D : length data = (5 + length c + length rest)%nat).
  { unfold data. cbn [app length]. rewrite app_length. lia. }
  rewrite D. destruct (Nat.ltb_spec (5 + length c + length rest) (5 + length c)) as [K|_]; [lia|].
  assert (Fd : firstn (5 + length c) data = [0; 0; 0; direction_byte (p_dir p); p_type p] ++ c).
  { unfold data. change ([0; 0; 0; direction_byte (p_dir p)] ++ [p_type p] ++ c ++ rest)
      with (([0; 0; 0; direction_byte (p_dir p); p_type p] ++ c) ++ rest). now apply firstn_len4. }
  assert (Sd : skipn (5 + length c) data = rest).
  { unfold data. change ([0; 0; 0; direction_byte (p_dir p)] ++ [p_type p] ++ c ++ rest)
      with (([0; 0; 0; direction_byte (p_dir p); p_type p] ++ c) ++ rest). now apply skipn_len4. }
  rewrite Fd, Sd. cbn [read_body app].
  destruct (read_records f rest) as [rs|]; [|reflexivity]. f_equal. f_equal.
  unfold expected. unfold a, b. rewrite from_le_le.
  change (256 ^ N.of_nat 4) with 4294967296.
  rewrite from_le_le4 by lia. f_equal; lia.
Qed.

Lemma record_of_length p c : (16 <= length (record_of p c))%nat.
Proof.
  unfold record_of, write_record_header. rewrite !app_length, !le_length. cbn [length]. lia.
Qed.

Lemma read_back ps : forall cs f, Forall (fun p => 5 + lenN (p_packet p) < 4294967296) ps ->
  Forall2 (fun p c => length c = length (p_packet p)) ps cs ->
  (length ps <= f)%nat ->
  read_records f (concat (map (fun pc => record_of (fst pc) (snd pc)) (combine ps cs))) =
  Some (map (fun pc => expected (fst pc) (snd pc)) (combine ps cs)).
Proof.
  induction ps as [|p ps IH]; intros cs f Hs Hc Hf.
  { inversion Hc; subst. destruct f; reflexivity. }
  inversion Hc as [|? c ? cs' H1 H2]; subst. inversion Hs; subst.
  cbn [combine map concat fst snd]. destruct f as [|f]; [cbn in Hf; lia|].
  rewrite read_one by assumption. rewrite IH by (try assumption; cbn in Hf; lia). reflexivity.
Qed.

Lemma header_length lt : length (write_header lt) = 24%nat.
Proof. unfold write_header. rewrite !app_length, !le_length. reflexivity. Qed.

Lemma contents_lengths f ps f' cs : match f with Some m => names_ok m | None => True end ->
  contents f ps = Some (f', cs) ->
  Forall2 (fun p c => length c = length (p_packet p)) ps cs.
Proof.
  intros Hm. destruct f as [m|].
  - intros C. assert (C2 : exists m', filter_all m (map (fun p => (p_packet p, p_type p)) ps) = Some (m', cs)).
    { destruct ps; cbn [contents] in C;
        destruct (filter_all m _) as [[m2 os]|]; try discriminate; injection C as <- <-; eauto. }
    destruct C2 as [m' C2]. apply filter_all_lengths in C2; [|exact Hm].
    clear C. revert cs C2. induction ps as [|p ps IH]; intros cs C2; inversion C2; subst; constructor; auto.
  - intros C. assert (cs = map p_packet ps) as -> by (cbn in C; injection C; intros; subst; reflexivity).
    clear C. induction ps; cbn; constructor; auto.
Qed.

Lemma capture_read_back f ps s' os :
  match f with Some m => names_ok m | None => True end ->
  Forall (fun p => 5 + lenN (p_packet p) < 4294967296) ps ->
  pass_all (new_sniffer true f) ps = Some (s', os) ->
  os = handed_on ps /\
  exists file f' cs, output s' = Some file /\ contents f ps = Some (f', cs) /\
  length cs = length ps /\
  read_file file = Some (map (fun pc => expected (fst pc) (snd pc)) (combine ps cs)).
Proof.
  intros Hm Hs E. unfold new_sniffer, set_output_stream in E. cbn [filter_state] in E.
  apply pass_all_output in E as (-> & f' & cs & C & L & ->). split; [reflexivity|].
  eexists _, f', cs. split; [reflexivity|]. split; [exact C|]. split; [exact L|].
  unfold read_file.
  set (body := concat _). rewrite app_length, header_length.
  destruct (Nat.ltb_spec (24 + length body) 24) as [K|_]; [lia|].
  rewrite (skipn_len4 (write_header 201) body 24) by apply header_length.
  replace (from_le (firstn 4 (write_header 201 ++ body)) =? 0xa1b2c3d4) with true by reflexivity.
  replace (from_le (firstn 4 (skipn 20 (write_header 201 ++ body))) =? 201) with true by reflexivity.
  cbn [negb]. apply read_back; [exact Hs|now apply contents_lengths with f f'|].
  assert (forall l : list (passage * list N), (length l <=
    length (concat (map (fun pc => record_of (fst pc) (snd pc)) l)))%nat) as G.
  { induction l as [|[p c] l IHl]; [cbn; lia|]. cbn [map concat fst snd length].
    rewrite app_length. pose proof (record_of_length p c). lia. }
  specialize (G (combine ps cs)). fold body in G. rewrite combine_length, L in G. lia.
Qed.

Lemma unfiltered_read_back ps s' os :
  Forall (fun p => 5 + lenN (p_packet p) < 4294967296) ps ->
  pass_all (new_sniffer true None) ps = Some (s', os) ->
  os = handed_on ps /\
  exists file recs, output s' = Some file /\ read_file file = Some recs /\
  Forall2 (fun p r => r_dir r = direction_byte (p_dir p) /\ r_type r = p_type p /\
    r_bytes r = p_packet p) ps recs.
Proof.
  intros Hs E. destruct (capture_read_back None ps s' os I Hs E) as (H & file & f' & cs & O & C & L & R).
  split; [exact H|]. exists file. eexists. split; [exact O|]. split; [exact R|].
  assert (cs = map p_packet ps) as -> by (cbn in C; injection C; intros; subst; reflexivity).
  clear. induction ps; cbn; constructor; auto.
Qed.

Lemma unfiltered_total ps present : exists s' os,
  pass_all (new_sniffer present None) ps = Some (s', os).
Proof.
  assert (G : forall o, exists s' os, pass_all {| output := o; filter_state := None |} ps = Some (s', os)).
  { induction ps as [|p ps IH]; intros o; [now eexists _, _|]. cbn [pass_all]. unfold pass, append_record.
    cbn [output filter_state]. destruct o as [o|].
    - destruct (IH (Some (o ++ (write_record_header (p_time p) (4 + 1 + lenN (p_packet p)) ++
        [0; 0; 0; direction_byte (p_dir p)] ++ [p_type p]) ++ p_packet p))) as (s2 & os & ->).
      now eexists _, _.
    - destruct (IH None) as (s2 & os & ->). now eexists _, _. }
  apply G.
Qed.

Lemma filtered_read_back ps s' os :
  Forall (fun p => 5 + lenN (p_packet p) < 4294967296) ps ->
  pass_all (new_sniffer true (Some [])) ps = Some (s', os) ->
  os = handed_on ps /\
  exists file recs m filtered, output s' = Some file /\ read_file file = Some recs /\
  filter_all [] (map (fun p => (p_packet p, p_type p)) ps) = Some (m, filtered) /\
  map r_bytes recs = filtered /\
  Forall2 (fun p r => r_dir r = direction_byte (p_dir p) /\ r_type r = p_type p) ps recs.
Proof.
  intros Hs E.
  destruct (capture_read_back (Some []) ps s' os (Forall_nil _) Hs E) as (H & file & f' & cs & O & C & L & R).
  split; [exact H|]. exists file. eexists.
  assert (C2 : exists m', filter_all [] (map (fun p => (p_packet p, p_type p)) ps) = Some (m', cs)).
  { destruct ps; cbn [contents] in C;
      destruct (filter_all [] _) as [[m2 os']|]; try discriminate; injection C as <- <-; eauto. }
  destruct C2 as [m' C2]. exists m', cs. split; [exact O|]. split; [exact R|]. split; [exact C2|].
  split.
  - clear -L. revert cs L. induction ps as [|p ps IH]; intros [|c cs] L; try discriminate; [reflexivity|].
    cbn in *. f_equal. apply IH. lia.
  - clear -L. revert cs L. induction ps as [|p ps IH]; intros [|c cs] L; try discriminate; [constructor|].
    cbn in *. constructor; [auto|]. apply IH. lia.
Qed.

Lemma create_ignores_filter_witness : exists ps s' os file recs,
  ps = [{| p_dir := HostToController; p_type := 2; p_packet := [1; 0; 2; 0; 65; 66]; p_time := 0 |}] /\
  pass_all (create_sniffer true (Some [])) ps = Some (s', os) /\
  output s' = Some file /\ read_file file = Some recs /\ map r_bytes recs = map p_packet ps.
Proof.
  eexists _, _, _, _, _. split; [reflexivity|]. split; [vm_compute; reflexivity|].
  split; [reflexivity|]. split; [vm_compute; reflexivity|]. reflexivity.
Qed.

Lemma time_stamp_witness : exists p s' os file r,
  pass_all (new_sniffer true None) [p] = Some (s', os) /\
  output s' = Some file /\ read_file file = Some [r] /\
  1000000 * r_sec r + r_usec r <> p_time p /\ p_time p < 1000000 * 4294967296.
Proof.
  exists {| p_dir := HostToController; p_type := 1; p_packet := [3; 12; 0]; p_time := 1500000 |}.
  eexists _, _, _, _. split; [vm_compute; reflexivity|]. split; [reflexivity|].
  split; [vm_compute; reflexivity|]. vm_compute. split; [discriminate|reflexivity].
Qed.

Example sniffer_demo : exists s' os file,
  pass_all (new_sniffer true (Some []))
    [{| p_dir := HostToController; p_type := 1; p_packet := [3; 12; 0]; p_time := 1500000 |};
     {| p_dir := ControllerToHost; p_type := 2; p_packet := [1; 0; 2; 0; 65; 66]; p_time := 2000000 |}]
    = Some (s', os) /\ output s' = Some file /\ length file = 75%nat /\
  option_map (map r_bytes) (read_file file) = Some [[3; 12; 0]; [1; 0; 2; 0; 0; 0]].
Proof.
  eexists _, _, _. split; [vm_compute; reflexivity|]. split; [reflexivity|].
  split; vm_compute; reflexivity.
Qed.
