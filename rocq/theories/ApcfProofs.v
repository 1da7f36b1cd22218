(** Proofs about the advertising packet content filters. *)
From Verif Require Import Prelude Apcf ApcfSpec.
Open Scope N_scope.
Ltac Zify.zify_post_hook ::= Z.div_mod_to_equations.

Lemma filter_ext_in' {A} (f g : A -> bool) l : (forall x, In x l -> f x = g x) -> List.filter f l = List.filter g l.
Proof. intros E. induction l as [|x l IH]; [reflexivity|]. cbn. rewrite (E x (or_introl eq_refl)), IH; [reflexivity|]. intros y I. apply E. now right. Qed.
Lemma filter_map' {A B} (f : A -> B) (p : B -> bool) l : List.filter p (map f l) = map f (List.filter (fun x => p (f x)) l).
Proof. induction l as [|x l IH]; [reflexivity|]. cbn. rewrite IH. now destruct (p (f x)). Qed.
Lemma filter_app' {A} (p : A -> bool) l m : List.filter p (l ++ m) = List.filter p l ++ List.filter p m.
Proof. induction l as [|x l IH]; [reflexivity|]. cbn. rewrite IH. now destruct (p x). Qed.
Lemma filter_rev' {A} (p : A -> bool) l : List.filter p (rev l) = rev (List.filter p l).
Proof. induction l as [|x l IH]; [reflexivity|]. cbn. rewrite filter_app', IH. cbn. destruct (p x); [reflexivity|now rewrite app_nil_r]. Qed.
Lemma existsb_rev {A} (p : A -> bool) l : existsb p (rev l) = existsb p l.
Proof. induction l as [|x l IH]; [reflexivity|]. cbn. rewrite existsb_app, IH. cbn. rewrite orb_false_r. apply orb_comm. Qed.
Lemma existsb_map {A B} (f : A -> B) (p : B -> bool) l : existsb p (map f l) = existsb (fun x => p (f x)) l.
Proof. induction l as [|x l IH]; [reflexivity|]. cbn. now rewrite IH. Qed.
Lemma filter_length {A} (p : A -> bool) (l : list A) : lenN (List.filter p l) <= lenN l.
Proof. unfold lenN. induction l as [|x l IH]; [reflexivity|]. cbn. destruct (p x); cbn [length]; lia. Qed.

(** How conditions are stored *)
Definition stored (c : condition) : value :=
  match c with
  | CAddress a t => VAddress a t
  | CBytes b => let half := Nat.div (length b) 2 in VGap (firstn half b) (skipn half b)
  | CAd t d m => VAd t d m
  end.
Definition stored_entry (x : N * condition) : entry := Entry (fst x) (stored (snd x)).

Lemma list_eqb_spec a b : list_eqb a b = true <-> a = b.
Proof. split; [apply list_eqb_eq|]. intros ->. apply list_eqb_refl. Qed.

Lemma stored_eqb x y : value_eqb (stored x) (stored y) = condition_eqb x y.
Proof.
  destruct x, y; try reflexivity. cbn [stored value_eqb condition_eqb]. apply eq_iff_eq_true.
  rewrite andb_true_iff, !list_eqb_spec. split; [|intros ->; auto].
  intros [A B]. rewrite <- (firstn_skipn (Nat.div (length b) 2) b), A, B. apply firstn_skipn.
Qed.
Lemma entry_stored_eqb x y : entry_eqb (stored_entry x) (stored_entry y) = (fst x =? fst y) && condition_eqb (snd x) (snd y).
Proof. unfold entry_eqb, stored_entry. cbn. now rewrite stored_eqb. Qed.

Definition table (k : kind) (s : scanner) : list entry :=
  match k with
  | KAddress => broadcaster_address_filters s
  | KUuid => service_uuid_filters s
  | KSolicitation => service_solicitation_uuid_filters s
  | KName => local_name_filters s
  | KManufacturer => manufacturer_data_filters s
  | KService => service_data_filters s
  | KAdType => ad_type_filters s
  end.

Record Inv (z : sizes) (h : list exchange) (s : scanner) : Prop := {
  i_filters : map filter_index (filters s) = rev (defined h);
  i_tables : forall k, table k s = map stored_entry (rev (conditions k h));
  i_unique : NoDup (defined h);
  i_room : lenN (defined h) <= filter_list_size z;
  i_rooms : forall k, lenN (conditions k h) <= capacity z k;
  i_owned : forall k i c, In (i, c) (conditions k h) -> In i (defined h) }.

Lemma len_filters z h s : Inv z h s -> lenN (filters s) = lenN (defined h).
Proof. intros I. unfold lenN. rewrite <- (map_length filter_index), (i_filters _ _ _ I), rev_length. reflexivity. Qed.
Lemma len_table z h s k : Inv z h s -> lenN (table k s) = lenN (conditions k h).
Proof. intros I. unfold lenN. rewrite (i_tables _ _ _ I), map_length, rev_length. reflexivity. Qed.
Lemma has_defined z h s i : Inv z h s -> has_filter_index s i = is_defined i h.
Proof.
  intros I. unfold has_filter_index, is_defined. rewrite <- (existsb_rev _ (defined h)), <- (i_filters _ _ _ I), existsb_map.
  induction (filters s) as [|f l IH]; [reflexivity|]. cbn. now rewrite IH, N.eqb_sym.
Qed.
Lemma spaces_spec size len : size < 256 -> len <= size -> spaces size len = size - len.
Proof. intros A B. unfold spaces. lia. Qed.
Lemma spaces_pred size len : size < 256 -> len < size -> (spaces size len + 255) mod 256 = size - (len + 1).
Proof. intros A B. unfold spaces. lia. Qed.
Lemma spaces_succ size len : size < 256 -> len <= size -> 0 < len -> (spaces size len + 1) mod 256 = size - (len - 1).
Proof. intros A B C. unfold spaces. lia. Qed.

Lemma is_defined_in i h : is_defined i h = true <-> In i (defined h).
Proof.
  unfold is_defined. rewrite existsb_exists. split; [intros (x & I & E); apply N.eqb_eq in E; now subst|].
  intros I. exists i. split; [exact I|apply N.eqb_refl].
Qed.

Lemma remove_one_length i l : NoDup l -> In i l -> lenN (List.filter (fun x => negb (x =? i)) l) = lenN l - 1.
Proof.
  unfold lenN. induction 1 as [|x l N D IH]; [easy|]. intros [->|I]; cbn [List.filter].
  - rewrite N.eqb_refl. cbn [negb length]. assert (E : List.filter (fun x => negb (x =? i)) l = l); [|rewrite E; lia].
    clear - N. induction l as [|y l IH]; [reflexivity|]. cbn. destruct (N.eqb_spec y i) as [->|]; [elim N; now left|].
    cbn. rewrite IH; [reflexivity|]. intros I. apply N. now right.
  - destruct (N.eqb_spec x i) as [->|]; [now elim N|]. cbn [negb length]. specialize (IH I).
    assert (0 < N.of_nat (length l)) by (destruct l; [easy|cbn; lia]). lia.
Qed.

Lemma split_is_stored i b : split_data i b = stored_entry (i, CBytes b).
Proof. reflexivity. Qed.

(** * Updating a table *)
Lemma update_spec z h s k a i v : Inv z h s -> capacity z k < 256 ->
  update_filter_list s (table k s) (capacity z k) a (stored_entry (i, v)) =
  let status := if is_defined i h then
                  match a with
                  | ADD => if capacity z k <=? lenN (conditions k h) then MEMORY_CAPACITY_EXCEEDED else SUCCESS
                  | DELETE | CLEAR => SUCCESS
                  | ACTION_OTHER => INVALID_PARAMETERS
                  end
                else UNKNOWN_CONNECTION in
  (match status with
   | SUCCESS =>
       map stored_entry (rev (match a with
         | ADD => (i, v) :: conditions k h
         | DELETE => List.filter (fun x => negb ((fst x =? i) && condition_eqb (snd x) v)) (conditions k h)
         | CLEAR => List.filter (fun x => negb (fst x =? i)) (conditions k h)
         | ACTION_OTHER => conditions k h
         end))
   | _ => table k s
   end, status).
Proof.
  intros I C. unfold update_filter_list. cbv zeta. rewrite (has_defined z h) by exact I. cbn [stored_entry entry_index fst].
  destruct (is_defined i h); cbn [negb]; [|reflexivity]. destruct a.
  - rewrite (len_table z h) by exact I. pose proof (i_rooms _ _ _ I k) as R.
    destruct (N.eqb_spec (lenN (conditions k h)) (capacity z k)) as [E|E].
    + rewrite (proj2 (N.leb_le _ _)) by lia. reflexivity.
    + rewrite (proj2 (N.leb_gt _ _)) by lia. rewrite (i_tables _ _ _ I). cbn [rev]. now rewrite map_app.
  - rewrite (i_tables _ _ _ I), <- filter_rev', filter_map'. f_equal. f_equal. apply filter_ext_in'. intros x _.
    change (Entry i (stored v)) with (stored_entry (i, v)). now rewrite entry_stored_eqb.
  - rewrite (i_tables _ _ _ I), <- filter_rev'. unfold not_of. rewrite filter_map'. reflexivity.
  - reflexivity.
Qed.

Definition set_table (k : kind) (l : list entry) (s : scanner) : scanner :=
  match k with
  | KAddress => Scanner (enable s) (filters s) l (service_uuid_filters s) (service_solicitation_uuid_filters s)
      (local_name_filters s) (manufacturer_data_filters s) (service_data_filters s) (ad_type_filters s)
  | KUuid => Scanner (enable s) (filters s) (broadcaster_address_filters s) l (service_solicitation_uuid_filters s)
      (local_name_filters s) (manufacturer_data_filters s) (service_data_filters s) (ad_type_filters s)
  | KSolicitation => Scanner (enable s) (filters s) (broadcaster_address_filters s) (service_uuid_filters s) l
      (local_name_filters s) (manufacturer_data_filters s) (service_data_filters s) (ad_type_filters s)
  | KName => Scanner (enable s) (filters s) (broadcaster_address_filters s) (service_uuid_filters s) (service_solicitation_uuid_filters s)
      l (manufacturer_data_filters s) (service_data_filters s) (ad_type_filters s)
  | KManufacturer => Scanner (enable s) (filters s) (broadcaster_address_filters s) (service_uuid_filters s) (service_solicitation_uuid_filters s)
      (local_name_filters s) l (service_data_filters s) (ad_type_filters s)
  | KService => Scanner (enable s) (filters s) (broadcaster_address_filters s) (service_uuid_filters s) (service_solicitation_uuid_filters s)
      (local_name_filters s) (manufacturer_data_filters s) l (ad_type_filters s)
  | KAdType => Scanner (enable s) (filters s) (broadcaster_address_filters s) (service_uuid_filters s) (service_solicitation_uuid_filters s)
      (local_name_filters s) (manufacturer_data_filters s) (service_data_filters s) l
  end.
Lemma set_table_same k s : set_table k (table k s) s = s.
Proof. now destruct k, s. Qed.
Lemma table_set_table k k' l s : table k (set_table k' l s) = if kind_eqb k k' then l else table k s.
Proof. now destruct k, k'. Qed.
Lemma kind_eqb_eq k k' : kind_eqb k k' = true <-> k = k'.
Proof. destruct k, k'; cbn; split; congruence. Qed.

(** The conditions after a command *)
Definition changed (k k' : kind) (a : action) (i : N) (v : condition) (l : list (N * condition)) : list (N * condition) :=
  if kind_eqb k k' then
    match a with
    | ADD => (i, v) :: l
    | DELETE => List.filter (fun x => negb ((fst x =? i) && condition_eqb (snd x) v)) l
    | CLEAR => List.filter (fun x => negb (fst x =? i)) l
    | ACTION_OTHER => l
    end
  else l.

Definition condition_status (z : sizes) (h : list exchange) (k : kind) (a : action) (i : N) : error :=
  if is_defined i h then
    match a with
    | ADD => if capacity z k <=? lenN (conditions k h) then MEMORY_CAPACITY_EXCEEDED else SUCCESS
    | DELETE | CLEAR => SUCCESS
    | ACTION_OTHER => INVALID_PARAMETERS
    end
  else UNKNOWN_CONNECTION.

(** One command on a table *)
Lemma condition_step z h s k a i v c n : sizes_ok z -> Inv z h s -> request c = Some (k, a, i, v) ->
  let r := condition_status z h k a i in
  let '(l, r') := update_filter_list s (table k s) (capacity z k) a (stored_entry (i, v)) in
  r' = r /\ Inv z (Exchange c r n :: h) (set_table k l s) /\
  spaces (capacity z k) (lenN l) = capacity z k - lenN (conditions k (Exchange c r n :: h)).
Proof.
  intros Z I R r. pose proof (proj2 Z k) as CK. rewrite (update_spec z h s k a i v I CK).
  fold (condition_status z h k a i). fold r. cbv zeta.
  assert (CC : forall k', conditions k' (Exchange c r n :: h) = match r with SUCCESS => changed k' k a i v (conditions k' h) | _ => conditions k' h end).
  { intros k'. cbn [conditions]. destruct r; try reflexivity. rewrite R. now destruct c. }
  assert (DD : defined (Exchange c r n :: h) = defined h).
  { cbn [defined]. destruct r; try reflexivity. now destruct c. }
  assert (INV : forall l, l = map stored_entry (rev (conditions k (Exchange c r n :: h))) -> Inv z (Exchange c r n :: h) (set_table k l s)).
  { intros l ->. constructor; rewrite ?DD.
    - rewrite <- (i_filters _ _ _ I). now destruct k.
    - intros k'. rewrite table_set_table. destruct (kind_eqb k' k) eqn:E; [apply kind_eqb_eq in E as ->; reflexivity|].
      rewrite CC. unfold changed. rewrite E. rewrite (i_tables _ _ _ I). now destruct r.
    - apply I.
    - apply I.
    - intros k'. rewrite CC. pose proof (i_rooms _ _ _ I k') as RM. destruct r eqn:ER; try exact RM. unfold changed.
      destruct (kind_eqb k' k) eqn:E; [|exact RM]. apply kind_eqb_eq in E as ->. destruct a; try exact RM.
      + unfold r, condition_status in ER. destruct (is_defined i h); [|discriminate].
        destruct (N.leb_spec (capacity z k) (lenN (conditions k h))); [discriminate|]. rewrite lenN_cons. lia.
      + eapply N.le_trans; [apply filter_length|exact RM].
      + eapply N.le_trans; [apply filter_length|exact RM].
    - intros k' j w. rewrite CC. pose proof (i_owned _ _ _ I k' j w) as O. destruct r eqn:ER; try exact O. unfold changed.
      destruct (kind_eqb k' k) eqn:E; [|exact O]. destruct a; try exact O.
      + intros [[= <- <-]|J]; [|now apply O]. unfold r, condition_status in ER. destruct (is_defined i h) eqn:D; [|discriminate].
        now apply is_defined_in.
      + intros J. apply filter_In in J as [J _]. now apply O.
      + intros J. apply filter_In in J as [J _]. now apply O. }
  assert (TB : match r with SUCCESS => map stored_entry (rev (match a with
         | ADD => (i, v) :: conditions k h
         | DELETE => List.filter (fun x => negb ((fst x =? i) && condition_eqb (snd x) v)) (conditions k h)
         | CLEAR => List.filter (fun x => negb (fst x =? i)) (conditions k h)
         | ACTION_OTHER => conditions k h end)) | _ => table k s end = map stored_entry (rev (conditions k (Exchange c r n :: h)))).
  { rewrite CC. unfold changed. rewrite (proj2 (kind_eqb_eq k k) eq_refl). destruct r; try apply (i_tables _ _ _ I). reflexivity. }
  rewrite TB. split; [reflexivity|]. split; [now apply INV|].
  rewrite <- (len_table z (Exchange c r n :: h) (set_table k (map stored_entry (rev (conditions k (Exchange c r n :: h)))) s) k) by now apply INV.
  rewrite table_set_table, (proj2 (kind_eqb_eq k k) eq_refl). apply spaces_spec; [exact CK|].
  unfold lenN. rewrite map_length, rev_length. apply (i_rooms _ _ _ (INV _ eq_refl) k).
Qed.

Lemma inv_none z h s : defined h = [] -> (forall k, conditions k h = []) -> filters s = [] -> (forall k, table k s = []) -> Inv z h s.
Proof.
  intros D C F T. constructor; rewrite ?D.
  - now rewrite F.
  - intros k. now rewrite T, C.
  - constructor.
  - apply N.le_0_l.
  - intros k. rewrite C. apply N.le_0_l.
  - intros k i c. now rewrite C.
Qed.

(** * One command *)
Lemma step_spec z h s c s' r n : sizes_ok z -> Inv z h s -> step z s c = (s', r, n) ->
  r = expected_status z h c /\ Inv z (Exchange c r n :: h) s' /\
  match expected_spaces z c (Exchange c r n :: h) with Some m => n = m | None => True end.
Proof.
  intros Z I S. pose proof (proj1 Z) as ZF. pose proof (i_room _ _ _ I) as RM.
  assert (COND : forall k a i v l r', request c = Some (k, a, i, v) ->
     update_filter_list s (table k s) (capacity z k) a (stored_entry (i, v)) = (l, r') ->
     (set_table k l s, r', spaces (capacity z k) (lenN l)) = (s', r, n) ->
     expected_status z h c = condition_status z h k a i ->
     expected_spaces z c (Exchange c r n :: h) = Some (capacity z k - lenN (conditions k (Exchange c r n :: h))) ->
     r = expected_status z h c /\ Inv z (Exchange c r n :: h) s' /\
     match expected_spaces z c (Exchange c r n :: h) with Some m => n = m | None => True end).
  { intros k a i v l r' R U E ES EP. pose proof (condition_step z h s k a i v c n Z I R) as X. cbv zeta in X. rewrite U in X.
    destruct X as (X1 & X2 & X3). injection E as E1 E2 E3. rewrite EP, ES. rewrite X1 in E2. subst s'. rewrite <- E2 in *. split; [reflexivity|].
    split; [exact X2|]. now rewrite <- E3. }
  destruct c; cbn [step] in S.
  - (* Enable *) injection S as <- <- <-. split; [reflexivity|]. split; [|exact Logic.I]. destruct I. constructor; assumption.
  - (* AddParameters *) rewrite (has_defined z h), (len_filters z h) in S by exact I. cbn [expected_status expected_spaces].
    destruct (is_defined (filter_index f) h) eqn:D.
    + injection S as <- <- <-. split; [reflexivity|]. split; [destruct I; now constructor|]. cbn [defined]. now apply spaces_spec.
    + rewrite spaces_spec in S by assumption.
      destruct (N.leb_spec (filter_list_size z) (lenN (defined h))) as [L|L].
      * replace (filter_list_size z - lenN (defined h) =? 0) with true in S by (symmetry; apply N.eqb_eq; lia). injection S as <- <- <-.
        split; [reflexivity|]. split; [destruct I; now constructor|]. reflexivity.
      * replace (filter_list_size z - lenN (defined h) =? 0) with false in S by (symmetry; apply N.eqb_neq; lia). injection S as <- <- <-.
        split; [reflexivity|]. split.
        -- destruct I. constructor; cbn [defined conditions filters]; try assumption.
           ++ rewrite map_app, i_filters0. reflexivity.
           ++ constructor; [|assumption]. rewrite <- is_defined_in. congruence.
           ++ rewrite lenN_cons. lia.
           ++ intros k i v J. right. exact (i_owned0 k i v J).
        -- cbn [defined]. rewrite lenN_cons. lia.
  - (* DeleteParameters *) rewrite (has_defined z h), (len_filters z h) in S by exact I. cbn [expected_status expected_spaces].
    destruct (is_defined i h) eqn:D; cbn [negb] in S.
    + apply is_defined_in in D. injection S as <- <- <-. split; [reflexivity|].
      assert (P : 0 < lenN (defined h)) by (destruct (defined h); [easy|rewrite lenN_cons; lia]).
      split.
      * destruct I. constructor; cbn [defined conditions].
        -- cbn [clear_filter_index filters]. rewrite <- filter_rev', <- i_filters0, filter_map'. reflexivity.
        -- intros k. assert (X : table k (clear_filter_index i (Scanner (enable s) (List.filter (fun f => negb (filter_index f =? i)) (filters s)) (broadcaster_address_filters s)
                    (service_uuid_filters s) (service_solicitation_uuid_filters s) (local_name_filters s) (manufacturer_data_filters s) (service_data_filters s) (ad_type_filters s))) =
                    not_of i (table k s)) by now destruct k. rewrite X, i_tables0, <- filter_rev'. unfold not_of. now rewrite filter_map'.
        -- now apply NoDup_filter.
        -- eapply N.le_trans; [apply filter_length|assumption].
        -- intros k. eapply N.le_trans; [apply filter_length|apply i_rooms0].
        -- intros k j v J. apply filter_In in J as [J E]. apply filter_In. split; [exact (i_owned0 k j v J)|exact E].
      * cbn [defined]. rewrite remove_one_length by (try apply I; exact D). now apply spaces_succ.
    + injection S as <- <- <-. split; [reflexivity|]. split; [destruct I; now constructor|]. cbn [defined]. now apply spaces_spec.
  - (* ClearParameters *) injection S as <- <- <-. split; [reflexivity|]. split.
    + apply inv_none; try reflexivity. now intros [].
    + cbn [expected_spaces defined]. rewrite lenN_nil. lia.
  - (* BroadcasterAddress *) destruct a.
    + destruct (update_filter_list _ _ _ _ _) as [l r'] eqn:U. exact (COND KAddress ADD i (CAddress broadcaster application_type) l r' eq_refl U S eq_refl eq_refl).
    + destruct (update_filter_list _ _ _ _ _) as [l r'] eqn:U. exact (COND KAddress DELETE i (CAddress broadcaster application_type) l r' eq_refl U S eq_refl eq_refl).
    + destruct (update_filter_list _ _ _ _ _) as [l r'] eqn:U. exact (COND KAddress CLEAR i (CAddress broadcaster application_type) l r' eq_refl U S eq_refl eq_refl).
    + injection S as <- <- <-. split; [reflexivity|]. split; [destruct I; now constructor|exact Logic.I].
  - destruct (update_filter_list _ _ _ _ _) as [l r'] eqn:U. exact (COND KUuid a i (CBytes bytes) l r' eq_refl U S eq_refl eq_refl).
  - destruct (update_filter_list _ _ _ _ _) as [l r'] eqn:U. exact (COND KSolicitation a i (CBytes bytes) l r' eq_refl U S eq_refl eq_refl).
  - destruct (update_filter_list _ _ _ _ _) as [l r'] eqn:U. exact (COND KName a i (CBytes bytes) l r' eq_refl U S eq_refl eq_refl).
  - destruct (update_filter_list _ _ _ _ _) as [l r'] eqn:U. exact (COND KManufacturer a i (CBytes bytes) l r' eq_refl U S eq_refl eq_refl).
  - destruct (update_filter_list _ _ _ _ _) as [l r'] eqn:U. exact (COND KService a i (CBytes bytes) l r' eq_refl U S eq_refl eq_refl).
  - destruct (update_filter_list _ _ _ _ _) as [l r'] eqn:U. exact (COND KAdType a i (CAd ad_type ad_data ad_data_mask) l r' eq_refl U S eq_refl eq_refl).
  - injection S as <- <- <-. split; [reflexivity|]. split; [|exact Logic.I].
    apply inv_none; try reflexivity. now intros [].
Qed.

Lemma inv_empty z : Inv z [] empty_scanner.
Proof. apply inv_none; try reflexivity. now intros []. Qed.

Lemma inv_history z h s : sizes_ok z -> history z h s -> Inv z h s.
Proof.
  intros Z. induction 1 as [|h s c s' r n H IH S]; [apply inv_empty|]. now destruct (step_spec _ _ _ _ _ _ _ Z IH S) as (_ & ? & _).
Qed.

Lemma responses z h s c r n : sizes_ok z -> history z (Exchange c r n :: h) s ->
  r = expected_status z h c /\ match expected_spaces z c (Exchange c r n :: h) with Some m => n = m | None => True end.
Proof.
  intros Z H. inversion H as [|? s0 ? ? ? ? H0 S]; subst.
  destruct (step_spec _ _ _ _ _ _ _ Z (inv_history _ _ _ Z H0) S) as (A & _ & B). auto.
Qed.
Lemma unique z h s : sizes_ok z -> history z h s -> NoDup (defined h) /\ lenN (defined h) <= filter_list_size z /\
  NoDup (map filter_index (filters s)) /\ (forall i, In i (map filter_index (filters s)) <-> In i (defined h)).
Proof.
  intros Z H. pose proof (inv_history _ _ _ Z H) as I. split; [apply I|]. split; [apply I|]. rewrite (i_filters _ _ _ I).
  split; [apply NoDup_rev; apply I|]. intros i. symmetry. apply in_rev.
Qed.
Lemma owned z h s k i c : sizes_ok z -> history z h s -> In (i, c) (conditions k h) -> In i (defined h).
Proof. intros Z H. apply (i_owned _ _ _ (inv_history _ _ _ Z H)). Qed.
Lemma bounded z h s k : sizes_ok z -> history z h s -> lenN (conditions k h) <= capacity z k.
Proof. intros Z H. apply (i_rooms _ _ _ (inv_history _ _ _ Z H)). Qed.
Lemma tables z h s k : sizes_ok z -> history z h s -> table k s = map stored_entry (rev (conditions k h)).
Proof. intros Z H. apply (i_tables _ _ _ (inv_history _ _ _ Z H)). Qed.
Lemma always z h s c : history z h s -> exists s' r n, history z (Exchange c r n :: h) s'.
Proof. intros H. destruct (step z s c) as [[s' r] n] eqn:E. exists s', r, n. exact (next _ _ _ _ _ _ _ H E). Qed.

(** * A concrete history *)
Fixpoint play (z : sizes) (s : scanner) (cs : list command) (h : list exchange) : scanner * list exchange :=
  match cs with
  | [] => (s, h)
  | c :: cs => let '(s', r, n) := step z s c in play z s' cs (Exchange c r n :: h)
  end.
Lemma play_history z cs : forall s h, history z h s -> history z (snd (play z s cs h)) (fst (play z s cs h)).
Proof.
  induction cs as [|c cs IH]; intros s h H; [exact H|]. cbn [play]. destruct (step z s c) as [[s' r] n] eqn:E. apply IH.
  exact (next _ _ _ _ _ _ _ H E).
Qed.
Definition small : sizes := Sizes 2 1 1 1 1 1 1 1.
Definition session : list command :=
  [AddParameters (Filter 5 []); LocalName ADD 5 [1; 2; 255; 255]; LocalName ADD 5 [7; 255]; AddParameters (Filter 5 []);
   AddParameters (Filter 6 []); AddParameters (Filter 7 []); AdType ADD 6 1 [2] [3]; LocalName DELETE 5 [1; 2; 255; 255];
   LocalName ADD 7 [1; 1]; DeleteParameters 6].
Lemma session_history : exists s, history small
  [Exchange (DeleteParameters 6) SUCCESS 1; Exchange (LocalName ADD 7 [1; 1]) UNKNOWN_CONNECTION 1;
   Exchange (LocalName DELETE 5 [1; 2; 255; 255]) SUCCESS 1; Exchange (AdType ADD 6 1 [2] [3]) SUCCESS 0;
   Exchange (AddParameters (Filter 7 [])) MEMORY_CAPACITY_EXCEEDED 0; Exchange (AddParameters (Filter 6 [])) SUCCESS 0;
   Exchange (AddParameters (Filter 5 [])) INVALID_PARAMETERS 1; Exchange (LocalName ADD 5 [7; 255]) MEMORY_CAPACITY_EXCEEDED 0;
   Exchange (LocalName ADD 5 [1; 2; 255; 255]) SUCCESS 0; Exchange (AddParameters (Filter 5 [])) SUCCESS 1] s.
Proof. eexists. exact (play_history small session _ _ (start small)). Qed.
Lemma small_ok : sizes_ok small.
Proof. split; [reflexivity|]. now intros []. Qed.
