(** How many tables a saved baseline has, and how long its text is: bounds for what the
    check counts. *)
From Verif Require Import BaseProofs BaselineProofs.
From Verif Require Import WireSerial Wire WireWrite WireRead WireBuild WireSchema WireRefine.
From Verif Require Import BaselineSpec.
Open Scope nat_scope.

(** ** Tables *)
Definition entry_tables (p : contract_inst * list index) : Z :=
  (3 + Z.of_nat (length (snd p)) * (2 + 3 * Z.of_nat (length (ct_states (ci_ty (fst p))))))%Z.
(** One for the root; a contract has three; an object has two and three for each field. *)
Definition saved_tables (l : list (contract_inst * list index)) : Z := (1 + sum (map entry_tables l))%Z.

Definition so_far (s : ser) : Z :=
  (3 * Z.of_nat (length (sr_contracts s)) + 2 * Z.of_nat (length (sr_states s)) + sum (map tables_object (sr_objects s)))%Z.
Definition usual (s : ser) : Prop :=
  Forall (fun c => tables_contract c = 3%Z) (sr_contracts s) /\ Forall (if_any (fun v => tables_state v = 2%Z)) (sr_states s).

Lemma sum_app : forall l m, sum (l ++ m) = (sum l + sum m)%Z.
Proof. unfold sum. induction l as [|x l IH]; intros m; cbn [app fold_right]; [lia|rewrite IH; lia]. Qed.

Section Count.
Variable b : baseline.

Lemma ser_state_count : forall o s id i s', ser_state b o s id = (Ok i, s') -> usual s -> usual s' /\ so_far s' = (so_far s + 2)%Z.
Proof.
  intros o s id i s' E [U1 U2]. unfold ser_state in E.
  destruct (bind_state b id o) as [h|e|]; try discriminate E.
  destruct (state_get b (pid_type id) h) as [v|e|] eqn:SG; try discriminate E.
  destruct (ser_value v) as [x|e|] eqn:SV; try discriminate E.
  assert (FM : if_any (fun v => tables_state v = 2%Z) x).
  { destruct v as [p|p]; cbn [ser_value] in SV; [|discriminate SV].
    destruct p; assert (EX := f_equal (fun o => match o with Ok y => y | _ => x end) SV); cbn in EX; subst x; try exact I; reflexivity. }
  assert (ES := f_equal snd E). cbn [snd] in ES. subst s'.
  unfold usual, so_far.
  assert (K : Forall (if_any (fun v => tables_state v = 2%Z)) (sr_states s ++ [x])) by (apply Forall_app; split; [exact U2|constructor; [exact FM|constructor]]).
  destruct (pid_type id) as [p|p]; try destruct p; cbn [sr_states sr_contracts sr_objects];
    (split; [split; assumption|]); rewrite app_length; cbn [length]; lia.
Qed.
Lemma ser_states_count : forall ids o s l s', ser_states b o s ids = (Ok l, s') -> usual s ->
  usual s' /\ so_far s' = (so_far s + 2 * Z.of_nat (length ids))%Z /\ length l = length ids.
Proof.
  induction ids as [|id ids IH]; intros o s l s' E U; cbn [ser_states] in E.
  - assert (s' = s) by congruence. assert (l = []) by congruence. subst. cbn [length]. split; [exact U|]. split; [lia|reflexivity].
  - destruct (ser_state b o s id) as [[i|e|] s1] eqn:E1; try discriminate E.
    destruct (ser_states b o s1 ids) as [[r|e|] s2] eqn:E2; try discriminate E.
    destruct (ser_state_count _ _ _ _ _ E1 U) as [U1 C1]. destruct (IH _ _ _ _ E2 U1) as (U2 & C2 & L2).
    assert (s' = s2) by congruence. assert (l = i :: r) by congruence. subst. cbn [length]. split; [exact U2|]. split; [lia|congruence].
Qed.
Lemma state_ids_length : forall C h, length (state_ids C h) = length (ct_states C).
Proof. intros C h. unfold state_ids. rewrite iter_collect_ids, ids_from_length. lia. Qed.
Lemma ser_object_count : forall c cidx s o s', ser_object b c cidx s o = (Ok tt, s') -> usual s ->
  usual s' /\ so_far s' = (so_far s + (2 + 3 * Z.of_nat (length (ct_states (ci_ty c)))))%Z.
Proof.
  intros c cidx s o s' E U. unfold ser_object in E.
  destruct (ser_states b o s (state_ids (ci_ty c) (ci_handle c))) as [[l|e|] s1] eqn:E1; try discriminate E.
  destruct (ser_states_count _ _ _ _ _ E1 U) as (U1 & C1 & L1). rewrite state_ids_length in C1, L1.
  assert (ES := f_equal snd E). cbn [snd] in ES. subst s'. split; [exact U1|].
  unfold so_far in *. cbn [sr_contracts sr_states sr_objects]. rewrite map_app, sum_app. cbn [map sum fold_right].
  unfold tables_object at 2. cbn [fo_contract fo_states one some_list]. lia.
Qed.
Lemma ser_objects_count : forall ord c cidx s s', ser_objects b c cidx s ord = (Ok tt, s') -> usual s ->
  usual s' /\ so_far s' = (so_far s + Z.of_nat (length ord) * (2 + 3 * Z.of_nat (length (ct_states (ci_ty c)))))%Z.
Proof.
  induction ord as [|o ord IH]; intros c cidx s s' E U; cbn [ser_objects] in E.
  - assert (s' = s) by congruence. subst. split; [exact U|]. cbn [length]. lia.
  - destruct (ser_object b c cidx s o) as [[[]|e|] s1] eqn:E1; try discriminate E.
    destruct (ser_object_count _ _ _ _ _ E1 U) as [U1 C1]. destruct (IH _ _ _ _ E U1) as [U2 C2].
    split; [exact U2|]. cbn [length]. lia.
Qed.
Lemma serialize_count : forall s c ord s', serialize b s c ord = (Ok tt, s') -> usual s ->
  usual s' /\ so_far s' = (so_far s + entry_tables (c, ord))%Z.
Proof.
  intros s c ord s' E U. unfold serialize in E.
  destruct (contract_data_of b (ci_handle c)) as [cd|e|]; try discriminate E.
  destruct (ser_contract (ci_ty c)) as [fc|e|] eqn:SC; try discriminate E. cbv zeta in E.
  destruct (N.eqb _ 0); [discriminate E|].
  apply ser_objects_count in E.
  - destruct E as [U1 C1]. split; [exact U1|]. rewrite C1. unfold entry_tables, so_far. cbn [fst snd sr_contracts sr_states sr_objects].
    rewrite app_length. cbn [length]. lia.
  - destruct U as [U1 U2]. split; cbn [sr_contracts sr_states]; [|exact U2]. apply Forall_app. split; [exact U1|]. constructor; [|constructor].
    unfold ser_contract in SC. destruct (ser_types (ct_states (ci_ty c))) as [ks|e|]; try discriminate SC.
    assert (EF := f_equal (fun o => match o with Ok y => y | _ => fc end) SC). cbn in EF. subst fc. reflexivity.
Qed.
Lemma serialize_all_count : forall l s s', serialize_all b s l = (Ok tt, s') -> usual s ->
  usual s' /\ so_far s' = (so_far s + sum (map entry_tables l))%Z.
Proof.
  induction l as [|[c ord] l IH]; intros s s' E U; cbn [serialize_all] in E.
  - assert (s' = s) by congruence. subst. split; [exact U|]. cbn. lia.
  - destruct (serialize b s c ord) as [[[]|e|] s1] eqn:E1; try discriminate E.
    destruct (serialize_count _ _ _ _ E1 U) as [U1 C1]. destruct (IH _ _ E U1) as [U2 C2]. split; [exact U2|].
    cbn [map sum fold_right]. fold (sum (map entry_tables l)). lia.
Qed.

Lemma rewrite_count : forall t look mk pairs states st, (forall j, tables_state (mk j) = 2%Z) ->
  Forall (if_any (fun v => tables_state v = 2%Z)) states -> rewrite_states b t look mk pairs states = Ok st ->
  Forall (if_any (fun v => tables_state v = 2%Z)) st /\ length st = length states.
Proof.
  intros t look mk. induction pairs as [|[h i] pairs IH]; intros states st M F E; cbn [rewrite_states] in E.
  - assert (st = states) by congruence. subst. auto.
  - destruct (state_get b t h) as [v|e|]; try discriminate E. destruct (look v) as [j|]; [|discriminate E].
    destruct (nth_error states i) as [[x|]|]; try discriminate E.
    apply IH in E; [|exact M|].
    + destruct E as [F1 L1]. split; [exact F1|]. rewrite L1. apply list_set_length.
    + clear - F M. revert i. induction F as [|y l Y F IH]; intros i; [constructor|]. destruct i as [|i]; cbn [list_set]; constructor; auto. exact (M j).
Qed.
Lemma all_some_count : forall st vs, all_some st = Some vs -> Forall (if_any (fun v => tables_state v = 2%Z)) st ->
  sum (map tables_state vs) = (2 * Z.of_nat (length st))%Z.
Proof.
  induction st as [|[x|] st IH]; intros vs E F; cbn [all_some] in E; [|destruct (all_some st) as [r|]; [|discriminate E]|discriminate E].
  - assert (vs = []) by congruence. subst. reflexivity.
  - assert (vs = x :: r) by congruence. subst. apply Forall_cons_iff in F. destruct F as [X F]. cbn [if_any] in X.
    specialize (IH r eq_refl F). cbn [map sum fold_right length]. fold (sum (map tables_state r)). lia.
Qed.
Lemma saved_count : forall l ordc ordo sr fb, serialize_all b ser_new l = (Ok tt, sr) ->
  ser_finish b sr ordc ordo = Ok (Some fb) -> tables fb = saved_tables l.
Proof.
  intros l ordc ordo sr fb E F. apply serialize_all_count in E; [|split; constructor]. destruct E as [[U1 U2] C].
  unfold ser_finish in F.
  destruct (rewrite_states b (TPrim TContractDataHandle) (look_contract sr) _ ordc (sr_states sr)) as [st1|e|] eqn:R1; try discriminate F.
  destruct (rewrite_states b (TPrim TObjectHandle) (look_object sr) _ ordo st1) as [st2|e|] eqn:R2; try discriminate F.
  apply rewrite_count in R1; [|reflexivity|exact U2]. destruct R1 as [F1 L1].
  apply rewrite_count in R2; [|reflexivity|exact F1]. destruct R2 as [F2 L2].
  destruct (all_some st2) as [vs|] eqn:AS; [|discriminate F].
  assert (fb = mkFb (Some (sr_contracts sr)) (Some vs) (Some (sr_objects sr))) by congruence. subst fb.
  unfold tables, saved_tables. cbn [fb_contracts fb_states fb_objects some_list].
  rewrite (all_some_count _ _ AS F2).
  assert (TC : sum (map tables_contract (sr_contracts sr)) = (3 * Z.of_nat (length (sr_contracts sr)))%Z).
  { clear - U1. induction U1 as [|x l X F IH]; [reflexivity|]. cbn [map sum fold_right length]. fold (sum (map tables_contract l)). lia. }
  rewrite TC. unfold so_far in C. cbn [ser_new sr_contracts sr_states sr_objects length map sum fold_right] in C.
  fold (sum (map tables_object (sr_objects sr))) in *. rewrite L2, L1. lia.
Qed.
End Count.

(** ** Text *)
Definition text_length (s : string) : Z := Z.of_nat (length (string_bytes s)).
Definition mass_value (v : fbval) : Z := match v with FFbString (Some s) => text_length s | _ => 0%Z end.
Definition mass_contract (c : fb_contract) : Z :=
  match c with
  | mkFbContract (Some (mkFbCid (Some name) _)) (Some (mkFbCstates (Some names) (Some ks))) =>
      (text_length name + sum (map (fun s => 9 + text_length s) names) + Z.of_nat (length ks))%Z
  | _ => 0%Z
  end.
Definition mass_state (x : option fbval) : Z := match x with Some v => mass_value v | None => 0%Z end.
Definition heavy (s : ser) : Z := (sum (map mass_contract (sr_contracts s)) + sum (map mass_state (sr_states s)))%Z.
Definition mass (f : fb_baseline) : Z :=
  (sum (map mass_contract (some_list (fb_contracts f))) + sum (map mass_value (some_list (fb_states f))))%Z.

Lemma costs_mass : forall A (c t m : A -> Z) l, (forall x, 8 + c x <= 90 * t x + 2 * m x)%Z ->
  (costs c l <= 90 * sum (map t l) + 2 * sum (map m l))%Z.
Proof.
  intros A c t m l H. induction l as [|x l IH]; cbn [costs map sum fold_right]; [lia|].
  fold (sum (map t l)). fold (sum (map m l)). specialize (H x). lia.
Qed.
Lemma text_nonneg : forall s, (0 <= text_length s)%Z. Proof. intros s. unfold text_length. lia. Qed.
Lemma names_mass : forall names, (0 <= sum (map (fun s => 9 + text_length s)%Z names))%Z.
Proof.
  induction names as [|s names IH]; cbn [map sum fold_right]; [lia|]. fold (sum (map (fun s => 9 + text_length s)%Z names)).
  pose proof (text_nonneg s). lia.
Qed.
Lemma weight_mass : forall f, (weight f <= 90 * tables f + 2 * mass f)%Z.
Proof.
  intros f. unfold weight, tables, mass.
  assert (K1 : (costs contract_cost_of (some_list (fb_contracts f)) <=
                90 * sum (map tables_contract (some_list (fb_contracts f))) + 2 * sum (map mass_contract (some_list (fb_contracts f))))%Z).
  { apply costs_mass. intros [[[[name|] v]|] [[[names|] [ks|]]|]]; unfold tables_contract; cbn [contract_cost_of mass_contract fc_id fc_states one]; try lia.
    unfold contract_cost, cid_cost, cstates_cost. unfold text_cost at 1. fold (text_length name).
    assert (C : (costs text_cost names <= 2 * sum (map (fun s => 9 + text_length s) names))%Z).
    { clear. induction names as [|s names IH]; cbn [costs map sum fold_right]; [lia|].
      fold (sum (map (fun s => 9 + text_length s)%Z names)). unfold text_cost at 1. fold (text_length s). pose proof (text_nonneg s). lia. }
    pose proof (text_nonneg name). lia. }
  assert (K2 : (costs state_cost (some_list (fb_states f)) <=
                90 * sum (map tables_state (some_list (fb_states f))) + 2 * sum (map mass_value (some_list (fb_states f))))%Z).
  { apply costs_mass. intros v. unfold state_cost, value_cost, num_cost. destruct v as [x|x|x|x|x|x|x|x|x|x|x|[s|]|i|i| |z]; cbn [tables_state mass_value]; try lia.
    unfold text_cost. fold (text_length s). pose proof (text_nonneg s). lia. }
  assert (K3 : (costs object_cost (some_list (fb_objects f)) <=
                90 * sum (map tables_object (some_list (fb_objects f))) + 2 * sum (map (fun _ => 0%Z) (some_list (fb_objects f))))%Z).
  { apply costs_mass. intros [c st]. unfold object_cost, tables_object. cbn [fo_contract fo_states].
    assert (C : forall l : list N, costs (fun _ => num_cost) l = (44 * Z.of_nat (length l))%Z)
      by (unfold num_cost; induction l as [|x l IH]; cbn [costs length]; lia).
    rewrite C. unfold num_cost. unfold one. destruct c; lia. }
  rewrite sum_zero in K3. lia.
Qed.

Lemma push_used_ge : forall x b, used b + size x <= used (push x b).
Proof.
  intros [n v|o] b; cbn [push size]; unfold used, prepend; cbn [bu align]; rewrite !app_length, put_length; unfold used; lia.
Qed.
Lemma prepend_used : forall l b, used (prepend l b) = length l + used b.
Proof. intros l b. unfold used, prepend. cbn [bu]. apply app_length. Qed.
Lemma string_used : forall s b o b', create_string s b = (o, b') -> (Z.of_nat (used b) + (5 + text_length s) <= Z.of_nat (used b'))%Z.
Proof.
  intros s b o b' E. unfold create_string in E. set (l := string_bytes s) in *.
  set (b1 := align (length l + 1) 4 b) in *. assert (M := more_used _ _ (align_more (length l + 1) 4 b)). fold b1 in M.
  set (b2 := prepend (l ++ [0%Z]) b1) in *.
  assert (b' = push (FScalar 4 (Z.of_nat (length l))) b2) by congruence. subst b'.
  pose proof (push_used_ge (FScalar 4 (Z.of_nat (length l))) b2) as P. cbn [size] in P.
  pose proof (prepend_used (l ++ [0%Z]) b1) as Q. fold b2 in Q. rewrite app_length in Q. cbn [length] in Q.
  unfold text_length. fold l. lia.
Qed.
Lemma bytes_used : forall l b o b', create_bytes l b = (o, b') -> used b + length l <= used b'.
Proof.
  intros l b o b' E. unfold create_bytes in E. set (b1 := align (length l) 4 b) in *.
  assert (M := more_used _ _ (align_more (length l) 4 b)). fold b1 in M. set (b2 := prepend l b1) in *.
  assert (b' = push (FScalar 4 (Z.of_nat (length l))) b2) by congruence. subst b'.
  pose proof (push_used_ge (FScalar 4 (Z.of_nat (length l))) b2) as P. pose proof (prepend_used l b1) as Q. fold b2 in Q. lia.
Qed.
Lemma vector_used : forall l b o b', create_vector l b = (o, b') -> used b + 4 * length l <= used b'.
Proof.
  intros l b o b' E. unfold create_vector in E. set (b1 := align (4 * length l) 4 b) in *.
  assert (M := more_used _ _ (align_more (4 * length l) 4 b)). fold b1 in M.
  assert (K : forall l b, used b + 4 * length l <= used (fold_right (fun o b => push (FOff o) b) b l)).
  { clear. induction l as [|x l IH]; intros b; cbn [fold_right length]; [lia|].
    pose proof (push_used_ge (FOff x) (fold_right (fun o b => push (FOff o) b) b l)) as P. cbn [size] in P. specialize (IH b). lia. }
  specialize (K l b1). set (b2 := fold_right (fun o b => push (FOff o) b) b1 l) in *.
  assert (b' = push (FScalar 4 (Z.of_nat (length l))) b2) by congruence. subst b'.
  pose proof (push_used_ge (FScalar 4 (Z.of_nat (length l))) b2) as P. lia.
Qed.
Lemma table_used : forall l b o b', create_table l b = (o, b') -> used b <= used b'.
Proof. intros l b o b' E. eapply more_used, create_table_more, E. Qed.
Lemma w_state_used : forall v b t b', w_state v b = (t, b') -> (Z.of_nat (used b) + mass_value v <= Z.of_nat (used b'))%Z.
Proof.
  intros v b t b' E. unfold w_state in E. destruct (w_value v b) as [p b1] eqn:W.
  apply table_used in E. assert (K : (Z.of_nat (used b) + mass_value v <= Z.of_nat (used b1))%Z); [|lia].
  destruct v as [x|x|x|x|x|x|x|x|x|x|x|[s|]|i|i| |z]; cbn [w_value mass_value] in *; try (apply table_used in W; lia).
  destruct (create_string s b) as [o b2] eqn:C. apply string_used in C. apply table_used in W. lia.
Qed.
Lemma strings_used : forall names l b l' b', fold_left add_string names (l, b) = (l', b') ->
  (Z.of_nat (used b) + sum (map (fun s => 5 + text_length s) names) <= Z.of_nat (used b'))%Z /\ length l' = length l + length names.
Proof.
  induction names as [|s names IH]; intros l b l' b' E; cbn [fold_left map sum fold_right length] in *.
  - assert (l' = l) by congruence. assert (b' = b) by congruence. subst. lia.
  - unfold add_string at 2 in E. destruct (create_string s b) as [o b1] eqn:C. apply string_used in C.
    apply IH in E. rewrite app_length in E. cbn [length] in E. fold (sum (map (fun s => 5 + text_length s)%Z names)). lia.
Qed.
Lemma sum_shift : forall A (f g : A -> Z) k l, (forall x, g x = k + f x)%Z -> sum (map g l) = (k * Z.of_nat (length l) + sum (map f l))%Z.
Proof.
  intros A f g k l H. induction l as [|x l IH]; cbn [map sum fold_right length]; [cbn; lia|].
  fold (sum (map f l)). fold (sum (map g l)). rewrite H. lia.
Qed.
Lemma w_contract_used : forall name ver names ks b t b', w_contract name ver names ks b = (t, b') ->
  (Z.of_nat (used b) + (text_length name + sum (map (fun s => 9 + text_length s) names) + Z.of_nat (length ks)) <= Z.of_nat (used b'))%Z.
Proof.
  intros name [[v1 v2] v3] names ks b t b' E. unfold w_contract in E.
  destruct (create_string name b) as [n b1] eqn:E1.
  destruct (create_table _ b1) as [cid b2] eqn:E2.
  change (fold_left _ names ([], b2)) with (fold_left add_string names ([], b2)) in E.
  destruct (fold_left add_string names ([], b2)) as [os b3] eqn:E3.
  destruct (create_vector os b3) as [nv b4] eqn:E4. destruct (create_bytes ks b4) as [kv b5] eqn:E5.
  destruct (create_table _ b5) as [cs b6] eqn:E6.
  apply string_used in E1. apply table_used in E2. apply strings_used in E3. apply vector_used in E4. apply bytes_used in E5.
  apply table_used in E6. apply table_used in E. destruct E3 as [E3 L3]. cbn [length] in L3.
  rewrite (sum_shift _ (fun s => 5 + text_length s)%Z (fun s => 9 + text_length s)%Z 4 names) by (intros; lia). lia.
Qed.

Section Mass.
Variable b : baseline.
Definition light (s : ser) (w : wr) (s' : ser) (w' : wr) : Prop :=
  (heavy s' + Z.of_nat (used (wb w)) <= heavy s + Z.of_nat (used (wb w')))%Z.

Lemma out_state_light : forall o s w id h s' w', out_state b o s w id = (Ok h, s', w') -> light s w s' w'.
Proof.
  intros o s w id h s' w' E. unfold out_state in E. destruct (ser_state b o s id) as [[i|e|] s1] eqn:SE; try discriminate E.
  assert (X : exists x, sr_states s1 = sr_states s ++ [x] /\ sr_contracts s1 = sr_contracts s).
  { unfold ser_state in SE. destruct (bind_state b id o) as [hh|e|]; try discriminate SE.
    destruct (state_get b (pid_type id) hh) as [v|e|] eqn:SG; try discriminate SE.
    destruct (ser_value v) as [x|e|] eqn:SV; try discriminate SE.
    assert (ES := f_equal snd SE). cbn [snd] in ES. subst s1. exists x.
    destruct (pid_type id) as [p|p]; try destruct p; cbn [sr_states sr_contracts]; auto. }
  destruct X as (x & SS & SC). rewrite SS, last_last in E.
  destruct (match x with Some v => w_state v (wb w) | None => (WIP_DUMMY, wb w) end) as [p b1] eqn:W1.
  destruct (w_state_handle i b1) as [h' b2] eqn:W2. apply table_used in W2.
  assert (s' = s1) by congruence. assert (w' = mkWr b2 (w_cs w) (w_ss w ++ [p]) (w_os w)) by congruence. subst s' w'.
  unfold light, heavy. rewrite SS, SC, map_app, sum_app. cbn [map sum fold_right wb].
  assert (K : (Z.of_nat (used (wb w)) + mass_state x <= Z.of_nat (used b1))%Z).
  { destruct x as [v|]; cbn [mass_state]; [eapply w_state_used; exact W1|]. assert (b1 = wb w) by congruence. subst. lia. }
  lia.
Qed.
Lemma out_states_light : forall ids o s w l s' w', out_states b o s w ids = (Ok l, s', w') -> light s w s' w'.
Proof.
  induction ids as [|id ids IH]; intros o s w l s' w' E; cbn [out_states] in E.
  - assert (s' = s) by congruence. assert (w' = w) by congruence. subst. unfold light. lia.
  - destruct (out_state b o s w id) as [[[h|e|] s1] w1] eqn:E1; try discriminate E.
    destruct (out_states b o s1 w1 ids) as [[[r|e|] s2] w2] eqn:E2; try discriminate E.
    apply out_state_light in E1. apply IH in E2. assert (s' = s2) by congruence. assert (w' = w2) by congruence. subst. unfold light in *. lia.
Qed.
Lemma out_object_light : forall c cidx ct s w o u s' w', out_object b c cidx ct s w o = (Ok u, s', w') -> light s w s' w'.
Proof.
  intros c cidx ct s w o u s' w' E. unfold out_object in E.
  destruct (out_states b o s w (state_ids (ci_ty c) (ci_handle c))) as [[[l|e|] s1] w1] eqn:E1; try discriminate E.
  pose proof (out_states_light _ _ _ _ _ _ _ E1) as L1.
  destruct (w_object ct l (wb w1)) as [t bb] eqn:WO.
  assert (S1 : exists idx, ser_states b o s (state_ids (ci_ty c) (ci_handle c)) = (Ok idx, s1)).
  { clear E WO L1 t bb. revert s w l s1 w1 E1. generalize (state_ids (ci_ty c) (ci_handle c)). induction l as [|id ids IH]; intros s w l s1 w1 E; cbn [out_states ser_states] in *.
    - assert (s1 = s) by congruence. subst. eauto.
    - destruct (out_state b o s w id) as [[[h|e|] s2] w2] eqn:E1; try discriminate E.
      destruct (out_states b o s2 w2 ids) as [[[r|e|] s3] w3] eqn:E2; try discriminate E.
      destruct (out_state_ser b _ _ _ _ _ _ _ E1) as [i SE]. rewrite SE. destruct (IH _ _ _ _ _ E2) as [idx X]. rewrite X.
      assert (s1 = s3) by congruence. subst. eauto. }
  destruct S1 as [idx S1].
  assert (E' : s' = snd (ser_object b c cidx s o)) by congruence. unfold ser_object in E'. rewrite S1 in E'. cbn [snd] in E'.
  assert (w' = mkWr bb (w_cs w1) (w_ss w1) (w_os w1 ++ [t])) by congruence. subst s' w'.
  unfold w_object in WO. destruct (create_vector l (wb w1)) as [v b2] eqn:CV. apply vector_used in CV. apply table_used in WO.
  unfold light, heavy in *. cbn [sr_contracts sr_states wb]. lia.
Qed.
Lemma out_objects_light : forall ord c cidx ct s w u s' w', out_objects b c cidx ct s w ord = (Ok u, s', w') -> light s w s' w'.
Proof.
  induction ord as [|o ord IH]; intros c cidx ct s w u s' w' E; cbn [out_objects] in E.
  - assert (s' = s) by congruence. assert (w' = w) by congruence. subst. unfold light. lia.
  - destruct (out_object b c cidx ct s w o) as [[[x|e|] s1] w1] eqn:E1; try discriminate E.
    apply out_object_light in E1. apply IH in E. unfold light in *. lia.
Qed.
Lemma out_serialize_light : forall s w c ord u s' w', out_serialize b s w c ord = (Ok u, s', w') -> light s w s' w'.
Proof.
  intros s w c ord u s' w' E. unfold out_serialize in E. destruct (contract_data_of b (ci_handle c)) as [cd|e|]; try discriminate E.
  destruct (ser_types (ct_states (ci_ty c))) as [ks|e|]; try discriminate E. cbv zeta in E.
  destruct (w_contract (cid_name (ct_id (ci_ty c))) (cid_ver (ct_id (ci_ty c))) (ct_state_names (ci_ty c)) (map kind_byte ks) (wb w)) as [t bb] eqn:W.
  destruct (N.eqb _ 0); [discriminate E|].
  match type of E with (let '(_, _) := ?x in _) = _ => destruct x as [ct b2] eqn:CH end.
  apply out_objects_light in E. apply w_contract_used in W. apply table_used in CH. rewrite map_length in W.
  unfold light, heavy in *. cbn [sr_contracts sr_states wb] in E. rewrite map_app, sum_app in E. cbn [map sum fold_right mass_contract] in E. lia.
Qed.
Lemma out_all_light : forall l s w u s' w', out_all b s w l = (Ok u, s', w') -> light s w s' w'.
Proof.
  induction l as [|[c ord] l IH]; intros s w u s' w' E; cbn [out_all] in E.
  - assert (s' = s) by congruence. assert (w' = w) by congruence. subst. unfold light. lia.
  - destruct (out_serialize b s w c ord) as [[[x|e|] s1] w1] eqn:E1; try discriminate E.
    apply out_serialize_light in E1. apply IH in E. unfold light in *. lia.
Qed.
Lemma sum_set : forall states i v, nth_error states i = Some None -> mass_value v = 0%Z ->
  sum (map mass_state (list_set states i (Some v))) = sum (map mass_state states).
Proof.
  induction states as [|x states IH]; intros [|i] v N M; cbn [nth_error list_set map sum fold_right] in *; try discriminate N.
  - assert (x = None) by congruence. subst x. cbn [mass_state]. rewrite M. reflexivity.
  - fold (sum (map mass_state (list_set states i (Some v)))). fold (sum (map mass_state states)). rewrite (IH i v N M). reflexivity.
Qed.
Lemma out_rewrite_light : forall t look mk pairs states ws bb st ws' bb', (forall j, mass_value (mk j) = 0%Z) ->
  out_rewrite b t look mk pairs states ws bb = Ok (st, ws', bb') ->
  used bb <= used bb' /\ sum (map mass_state st) = sum (map mass_state states) /\ rewrite_states b t look mk pairs states = Ok st.
Proof.
  intros t look mk. induction pairs as [|[h i] pairs IH]; intros states ws bb st ws' bb' M E; cbn [out_rewrite rewrite_states] in *.
  - assert (bb' = bb) by congruence. assert (st = states) by congruence. subst. auto.
  - destruct (state_get b t h) as [v|e|]; try discriminate E. destruct (look v) as [j|]; [|discriminate E].
    destruct (nth_error states i) as [[x|]|] eqn:N; try discriminate E.
    destruct (w_state (mk j) bb) as [p b1] eqn:W. apply w_state_used in W.
    apply IH in E; [|exact M]. destruct E as (U & SS & RW). rewrite (sum_set _ _ _ N (M j)) in SS. rewrite M in W. split; [lia|]. split; assumption.
Qed.
Lemma all_some_mass : forall st vs, all_some st = Some vs -> sum (map mass_value vs) = sum (map mass_state st).
Proof.
  induction st as [|[x|] st IH]; intros vs E; cbn [all_some] in E; [|destruct (all_some st) as [r|]; [|discriminate E]|discriminate E].
  - assert (vs = []) by congruence. subst. reflexivity.
  - assert (vs = x :: r) by congruence. subst. cbn [map sum fold_right mass_state]. 
    fold (sum (map mass_value r)). fold (sum (map mass_state st)). rewrite (IH r eq_refl). reflexivity.
Qed.
Lemma finish_used : forall cs ss os bb, used bb <= length (w_finish cs ss os bb).
Proof.
  intros cs ss os bb. unfold w_finish. destruct (create_vector cs bb) as [c b1] eqn:E1. destruct (create_vector ss b1) as [s b2] eqn:E2.
  destruct (create_vector os b2) as [o b3] eqn:E3. destruct (create_table [(2, FOff o); (1, FOff s); (0, FOff c)] b3) as [r b4] eqn:E4.
  apply create_vector_more in E1. apply create_vector_more in E2. apply create_vector_more in E3. apply create_table_more in E4.
  apply more_used in E1, E2, E3, E4. unfold finish.
  assert (M : more b4 (push (FOff r) (prepend prefix (align 8 (ma b4) b4))))
    by (eapply more_trans; [apply align_more|eapply more_trans; [apply prepend_more|apply push_more]]).
  apply more_used in M. unfold used in M at 2. lia.
Qed.
Lemma finish_mass : forall ord sr w fb bytes,
  light ser_new wr_new sr w -> out_finish b sr w (fst (ord sr)) (snd (ord sr)) = Ok bytes ->
  ser_finish b sr (fst (ord sr)) (snd (ord sr)) = Ok (Some fb) ->
  (mass fb <= Z.of_nat (length bytes))%Z.
Proof.
  intros ord sr w fb bytes OA S SF. unfold out_finish in S.
  destruct (out_rewrite b (TPrim TContractDataHandle) (look_contract sr) _ (fst (ord sr)) (sr_states sr) (w_ss w) (wb w)) as [[[st1 ws1] bb1]|e|] eqn:R1; try discriminate S.
  destruct (out_rewrite b (TPrim TObjectHandle) (look_object sr) _ (snd (ord sr)) st1 ws1 bb1) as [[[st2 ws2] bb2]|e|] eqn:R2; try discriminate S.
  apply out_rewrite_light in R1; [|reflexivity]. apply out_rewrite_light in R2; [|reflexivity].
  destruct R1 as (U1 & M1 & W1). destruct R2 as (U2 & M2 & W2).
  unfold ser_finish in SF. rewrite W1, W2 in SF. destruct (all_some st2) as [vs|] eqn:AS; [|discriminate SF].
  assert (fb = mkFb (Some (sr_contracts sr)) (Some vs) (Some (sr_objects sr))) by congruence. subst fb.
  unfold mass. cbn [fb_contracts fb_states some_list]. rewrite (all_some_mass _ _ AS), M2, M1.
  assert (EB : bytes = w_finish (w_cs w) ws2 (w_os w) bb2) by congruence. rewrite EB.
  pose proof (finish_used (w_cs w) ws2 (w_os w) bb2) as FU.
  unfold light, heavy in OA.
  change (sum (map mass_contract (sr_contracts ser_new))) with 0%Z in OA. change (sum (map mass_state (sr_states ser_new))) with 0%Z in OA.
  change (used (wb wr_new)) with 0 in OA. lia.
Qed.
Lemma saved_mass : forall l ord sr fb bytes, save b l ord = Ok bytes -> Forall (fun p => writable (ci_ty (fst p))) l ->
  (forall t h v, st_at b t h = Some v -> typed v) ->
  serialize_all b ser_new l = (Ok tt, sr) -> ser_finish b sr (fst (ord sr)) (snd (ord sr)) = Ok (Some fb) ->
  (mass fb <= Z.of_nat (length bytes))%Z.
Proof.
  intros l ord sr fb bytes S WR TY SA SF. unfold save in S.
  destruct (out_all b ser_new wr_new l) as [[r s] w] eqn:OA. destruct (out_all_ser b TY _ _ _ _ _ _ OA WR) as [SE _].
  rewrite SE in SA. assert (r = Ok tt) by congruence. assert (s = sr) by congruence. subst r s.
  apply out_all_light in OA. exact (finish_mass ord sr w fb bytes OA S SF).
Qed.
End Mass.

(** ** What is written is bytes *)
Definition byte (z : Z) : Prop := (0 <= z < 256)%Z.
Definition clean (b : build) : Prop := Forall byte (bu b).
Lemma put_clean : forall n v, Forall byte (put n v).
Proof. induction n as [|n IH]; intros v; cbn [put]; constructor; [|apply IH]. unfold byte. apply Z.mod_pos_bound. lia. Qed.
Lemma string_clean : forall s, Forall byte (string_bytes s).
Proof.
  intros s. unfold string_bytes. apply Forall_forall. intros z IN. apply in_map_iff in IN. destruct IN as (a & <- & _).
  pose proof (Coq.Strings.Ascii.N_ascii_bounded a). unfold byte. lia.
Qed.
Lemma align_clean : forall n a b, clean b -> clean (align n a b).
Proof.
  intros n a b C. unfold clean, align. cbn [bu]. apply Forall_app. split; [|exact C]. apply Forall_forall.
  intros z IN. apply repeat_spec in IN. subst z. unfold byte. lia.
Qed.
Lemma prepend_clean : forall l b, Forall byte l -> clean b -> clean (prepend l b).
Proof. intros l b L C. unfold clean, prepend. cbn [bu]. apply Forall_app. split; assumption. Qed.
Lemma push_clean : forall x b, clean b -> clean (push x b).
Proof. intros [n v|o] b C; cbn [push]; apply prepend_clean; try apply put_clean; apply align_clean; exact C. Qed.
Lemma push_fields_clean : forall l b locs b', push_fields l b = (locs, b') -> clean b -> clean b'.
Proof.
  induction l as [|[i x] l IH]; intros b locs b' E C; cbn [push_fields] in E.
  - assert (b' = b) by congruence. subst. exact C.
  - destruct (push_fields l (push x b)) as [r b1] eqn:E1. assert (b' = b1) by congruence. subst.
    eapply IH; [exact E1|]. apply push_clean. exact C.
Qed.
Lemma table_clean : forall l b t b', create_table l b = (t, b') -> clean b -> clean b'.
Proof.
  intros l b t b' E C. unfold create_table in E. destruct (push_fields l b) as [locs b1] eqn:P.
  pose proof (align_clean 4 4 _ (push_fields_clean _ _ _ _ P C)) as C2.
  match type of E with context [find ?f ?x] => destruct (find f x) as [[? v]|] end;
    match type of E with (_, ?x) = _ => assert (b' = x) by congruence end; subst b'; unfold clean; cbn [bu].
  - apply Forall_app. split; [apply put_clean|exact C2].
  - apply Forall_app. split; [|apply Forall_app; split; [apply put_clean|exact C2]].
    unfold vtable_bytes. apply Forall_app. split; [apply put_clean|]. apply Forall_app. split; [apply put_clean|].
    apply Forall_forall. intros z IN. apply in_flat_map in IN. destruct IN as (k & _ & IN).
    match type of IN with In _ (put 2 ?v) => pose proof (put_clean 2 v) as PC end. rewrite Forall_forall in PC. apply PC. exact IN.
Qed.
Lemma string_clean' : forall s b o b', create_string s b = (o, b') -> clean b -> clean b'.
Proof.
  intros s b o b' E C. unfold create_string in E. match type of E with (_, ?x) = _ => assert (b' = x) by congruence end. subst b'.
  apply push_clean, prepend_clean; [|apply align_clean; exact C]. apply Forall_app. split; [apply string_clean|].
  constructor; [unfold byte; lia|constructor].
Qed.
Lemma bytes_clean : forall l b o b', create_bytes l b = (o, b') -> Forall byte l -> clean b -> clean b'.
Proof.
  intros l b o b' E L C. unfold create_bytes in E. match type of E with (_, ?x) = _ => assert (b' = x) by congruence end. subst b'.
  apply push_clean, prepend_clean; [exact L|]. apply align_clean. exact C.
Qed.
Lemma vector_clean : forall l b o b', create_vector l b = (o, b') -> clean b -> clean b'.
Proof.
  intros l b o b' E C. unfold create_vector in E. match type of E with (_, ?x) = _ => assert (b' = x) by congruence end. subst b'.
  apply push_clean. clear E o. pose proof (align_clean (4 * length l) 4 b C) as C1. revert C1. generalize (align (4 * length l) 4 b).
  clear. induction l as [|x l IH]; intros b C; cbn [fold_right]; [exact C|]. apply push_clean, IH, C.
Qed.
Lemma w_state_clean : forall v b t b', w_state v b = (t, b') -> clean b -> clean b'.
Proof.
  intros v b t b' E C. unfold w_state in E. destruct (w_value v b) as [p b1] eqn:W. eapply table_clean; [exact E|].
  destruct v as [x|x|x|x|x|x|x|x|x|x|x|[s|]|i|i| |z]; cbn [w_value] in W; try (eapply table_clean; [exact W|exact C]).
  destruct (create_string s b) as [o b2] eqn:S. eapply table_clean; [exact W|]. eapply string_clean'; [exact S|exact C].
Qed.
Lemma w_contract_clean : forall name ver names ks b t b', w_contract name ver names ks b = (t, b') -> Forall byte ks -> clean b -> clean b'.
Proof.
  intros name [[v1 v2] v3] names ks b t b' E K C. unfold w_contract in E.
  destruct (create_string name b) as [n b1] eqn:E1. destruct (create_table _ b1) as [cid b2] eqn:E2.
  change (fold_left _ names ([], b2)) with (fold_left add_string names ([], b2)) in E.
  destruct (fold_left add_string names ([], b2)) as [os b3] eqn:E3.
  destruct (create_vector os b3) as [nv b4] eqn:E4. destruct (create_bytes ks b4) as [kv b5] eqn:E5.
  destruct (create_table _ b5) as [cs b6] eqn:E6.
  eapply table_clean; [exact E|]. eapply table_clean; [exact E6|]. eapply bytes_clean; [exact E5|exact K|].
  eapply vector_clean; [exact E4|].
  assert (C2 : clean b2) by (eapply table_clean; [exact E2|]; eapply string_clean'; [exact E1|exact C]).
  clear - E3 C2. revert E3 C2. generalize (@nil nat). revert b2. induction names as [|s names IH]; intros b2 l E C; cbn [fold_left] in E.
  - assert (b3 = b2) by congruence. subst. exact C.
  - unfold add_string at 2 in E. destruct (create_string s b2) as [o b4] eqn:S. eapply IH; [exact E|]. eapply string_clean'; [exact S|exact C].
Qed.

Section Clean.
Variable b : baseline.
Lemma out_states_clean : forall ids o s w l s' w', out_states b o s w ids = (Ok l, s', w') -> clean (wb w) -> clean (wb w').
Proof.
  induction ids as [|id ids IH]; intros o s w l s' w' E C; cbn [out_states] in E.
  - assert (w' = w) by congruence. subst. exact C.
  - destruct (out_state b o s w id) as [[[h|e|] s1] w1] eqn:E1; try discriminate E.
    destruct (out_states b o s1 w1 ids) as [[[r|e|] s2] w2] eqn:E2; try discriminate E.
    assert (w' = w2) by congruence. subst. eapply IH; [exact E2|].
    unfold out_state in E1. destruct (ser_state b o s id) as [[i|e|] s3]; try discriminate E1.
    destruct (match last (sr_states s3) None with Some v => w_state v (wb w) | None => (WIP_DUMMY, wb w) end) as [p b1] eqn:W1.
    destruct (w_state_handle i b1) as [h' b2] eqn:W2.
    assert (w1 = mkWr b2 (w_cs w) (w_ss w ++ [p]) (w_os w)) by congruence. subst w1. cbn [wb]. eapply table_clean; [exact W2|].
    destruct (last (sr_states s3) None) as [v|]; [eapply w_state_clean; [exact W1|exact C]|]. assert (b1 = wb w) by congruence. subst. exact C.
Qed.
Lemma out_objects_clean : forall ord c cidx ct s w u s' w', out_objects b c cidx ct s w ord = (Ok u, s', w') -> clean (wb w) -> clean (wb w').
Proof.
  induction ord as [|o ord IH]; intros c cidx ct s w u s' w' E C; cbn [out_objects] in E.
  - assert (w' = w) by congruence. subst. exact C.
  - destruct (out_object b c cidx ct s w o) as [[[x|e|] s1] w1] eqn:E1; try discriminate E. eapply IH; [exact E|].
    unfold out_object in E1. destruct (out_states b o s w (state_ids (ci_ty c) (ci_handle c))) as [[[l|e|] s2] w2] eqn:E2; try discriminate E1.
    apply out_states_clean in E2; [|exact C]. destruct (w_object ct l (wb w2)) as [t bb] eqn:WO.
    assert (w1 = mkWr bb (w_cs w2) (w_ss w2) (w_os w2 ++ [t])) by congruence. subst w1. cbn [wb].
    unfold w_object in WO. destruct (create_vector l (wb w2)) as [v b2] eqn:CV. eapply table_clean; [exact WO|]. eapply vector_clean; [exact CV|exact E2].
Qed.
Lemma kinds_clean : forall ts ks, ser_types ts = Ok ks -> Forall byte (map kind_byte ks).
Proof.
  induction ts as [|t ts IH]; intros ks E; cbn [ser_types] in E.
  - assert (ks = []) by congruence. subst. constructor.
  - destruct t as [|p]; [discriminate E|]. destruct (ser_types ts) as [l| |]; try discriminate E.
    assert (ks = kind_of_prim p :: l) by congruence. subst. cbn [map]. constructor; [|apply IH; reflexivity]. unfold byte. destruct p; cbn; lia.
Qed.
Lemma out_serialize_clean : forall s w c ord u s' w', out_serialize b s w c ord = (Ok u, s', w') -> clean (wb w) -> clean (wb w').
Proof.
  intros s w c ord u s1 w1 E1 C.
  unfold out_serialize in E1. destruct (contract_data_of b (ci_handle c)) as [cd|e|]; try discriminate E1.
  destruct (ser_types (ct_states (ci_ty c))) as [ks|e|] eqn:K; try discriminate E1. cbv zeta in E1.
  destruct (w_contract (cid_name (ct_id (ci_ty c))) (cid_ver (ct_id (ci_ty c))) (ct_state_names (ci_ty c)) (map kind_byte ks) (wb w)) as [t bb] eqn:W.
  destruct (N.eqb _ 0); [discriminate E1|].
  match type of E1 with (let '(_, _) := ?x in _) = _ => destruct x as [ct b2] eqn:CH end.
  apply out_objects_clean in E1; [exact E1|]. cbn [wb]. eapply table_clean; [exact CH|].
  eapply w_contract_clean; [exact W|eapply kinds_clean; exact K|exact C].
Qed.
Lemma out_all_clean : forall l s w u s' w', out_all b s w l = (Ok u, s', w') -> clean (wb w) -> clean (wb w').
Proof.
  induction l as [|[c ord] l IH]; intros s w u s' w' E C; cbn [out_all] in E.
  - assert (w' = w) by congruence. subst. exact C.
  - destruct (out_serialize b s w c ord) as [[[x|e|] s1] w1] eqn:E1; try discriminate E. eapply IH; [exact E|].
    eapply out_serialize_clean; [exact E1|exact C].
Qed.
Lemma out_rewrite_clean : forall t look mk pairs states ws bb st ws' bb',
  out_rewrite b t look mk pairs states ws bb = Ok (st, ws', bb') -> clean bb -> clean bb'.
Proof.
  intros t look mk. induction pairs as [|[h i] pairs IH]; intros states ws bb st ws' bb' E C; cbn [out_rewrite] in *.
  - assert (bb' = bb) by congruence. subst. exact C.
  - destruct (state_get b t h) as [v|e|]; try discriminate E. destruct (look v) as [j|]; [|discriminate E].
    destruct (nth_error states i) as [[x|]|] eqn:N; try discriminate E.
    destruct (w_state (mk j) bb) as [p b1] eqn:W. eapply IH; [exact E|]. eapply w_state_clean; [exact W|exact C].
Qed.
Lemma finish_bytes : forall ord s w bytes, clean (wb w) -> out_finish b s w (fst (ord s)) (snd (ord s)) = Ok bytes -> Forall byte bytes.
Proof.
  intros ord s w bytes OA S. unfold out_finish in S.
  destruct (out_rewrite b _ _ _ (fst (ord s)) _ _ _) as [[[st1 ws1] bb1]|e|] eqn:R1; try discriminate S.
  destruct (out_rewrite b _ _ _ (snd (ord s)) _ _ _) as [[[st2 ws2] bb2]|e|] eqn:R2; try discriminate S.
  apply out_rewrite_clean in R1; [|exact OA]. apply out_rewrite_clean in R2; [|exact R1].
  assert (EB : bytes = w_finish (w_cs w) ws2 (w_os w) bb2) by congruence. rewrite EB. unfold w_finish.
  destruct (create_vector (w_cs w) bb2) as [c b1] eqn:E1. destruct (create_vector ws2 b1) as [x b2] eqn:E2.
  destruct (create_vector (w_os w) b2) as [o b3] eqn:E3. destruct (create_table _ b3) as [r b4] eqn:E4.
  unfold finish. apply push_clean, prepend_clean; [repeat (constructor; [unfold byte; lia|]); constructor|]. apply align_clean.
  eapply table_clean; [exact E4|]. eapply vector_clean; [exact E3|]. eapply vector_clean; [exact E2|]. eapply vector_clean; [exact E1|exact R2].
Qed.
Lemma saved_bytes : forall l ord bytes, save b l ord = Ok bytes -> Forall byte bytes.
Proof.
  intros l ord bytes S. unfold save in S. destruct (out_all b ser_new wr_new l) as [[[u|e|] s] w] eqn:OA; try discriminate S.
  apply out_all_clean in OA; [|constructor]. exact (finish_bytes ord s w bytes OA S).
Qed.
End Clean.

(** ** The file is not much longer than its contents *)
Lemma align_used_le : forall n a b, a <> 0 -> used (align n a b) <= used b + (a - 1).
Proof.
  intros n a b A. unfold used, align. cbn [bu]. rewrite app_length, repeat_length.
  pose proof (Nat.mod_upper_bound (a - (used b + n) mod a) a A). unfold used in *. lia.
Qed.
Lemma push_used_le : forall x b, size x <> 0 -> used (push x b) <= used b + 2 * size x.
Proof.
  intros [n v|o] b N; cbn [push size] in *.
  - rewrite prepend_used, put_length. pose proof (align_used_le n n b N). lia.
  - rewrite prepend_used, put_length. pose proof (align_used_le 4 4 b N). lia.
Qed.
Definition sizes (l : list (nat * fval)) : nat := fold_right (fun f n => size (snd f) + n) 0 l.
Lemma push_fields_used_le : forall l b locs b', push_fields l b = (locs, b') -> Forall (fun f => size (snd f) <> 0) l ->
  used b' <= used b + 2 * sizes l /\ map fst locs = map fst l.
Proof.
  induction l as [|[i x] l IH]; intros b locs b' E F; cbn [push_fields] in E.
  - assert (b' = b) by congruence. assert (locs = []) by congruence. subst. cbn. split; [lia|reflexivity].
  - destruct (push_fields l (push x b)) as [r b1] eqn:E1. apply Forall_cons_iff in F. destruct F as [X F]. cbn [snd] in X.
    assert (b' = b1) by congruence. assert (L : locs = (i, used (push x b)) :: r) by congruence. subst b1 locs.
    destruct (IH _ _ _ E1 F) as [U M]. pose proof (push_used_le x b X). cbn [sizes fold_right snd map fst] in *. fold (sizes l). split; [lia|congruence].
Qed.
Lemma put_each : forall (f : nat -> Z) l, length (flat_map (fun i => put 2 (f i)) l) = 2 * length l.
Proof. intros f l. induction l as [|x l IH]; cbn [flat_map length]; [reflexivity|]. rewrite app_length, put_length, IH. lia. Qed.
Lemma table_used_le : forall l b t b', create_table l b = (t, b') -> Forall (fun f => size (snd f) <> 0 /\ fst f < 4) l ->
  used b' <= used b + 2 * sizes l + 19.
Proof.
  intros l b t b' E F. unfold create_table in E. destruct (push_fields l b) as [locs b1] eqn:P.
  assert (F1 : Forall (fun f => size (snd f) <> 0) l) by (eapply Forall_impl; [|exact F]; cbn; tauto).
  destruct (push_fields_used_le _ _ _ _ P F1) as [U M].
  pose proof (align_used_le 4 4 b1 ltac:(lia)) as A.
  match type of E with context [find ?f ?x] => destruct (find f x) as [[? v]|] end;
    match type of E with (_, ?x) = _ => assert (b' = x) by congruence end; subst b'; unfold used at 1; cbn [bu].
  - rewrite app_length, put_length. fold (used (align 4 4 b1)). lia.
  - rewrite !app_length, put_length. fold (used (align 4 4 b1)).
    assert (N : forall m : list (nat * nat), Forall (fun p => fst p < 4) m -> fold_right (fun p k => Nat.max (S (fst p)) k) 0 m <= 4).
    { intros m. induction m as [|p m IH]; intros FM; cbn [fold_right]; [lia|]. apply Forall_cons_iff in FM. destruct FM as [Q FM]. specialize (IH FM). lia. }
    specialize (N locs). assert (FL : Forall (fun p => fst p < 4) locs).
    { apply Forall_forall. intros p IN. assert (IN2 : In (fst p) (map fst l)) by (rewrite <- M; apply in_map; exact IN).
      apply in_map_iff in IN2. destruct IN2 as (q & Q1 & Q2). rewrite Forall_forall in F. specialize (F q Q2). lia. }
    specialize (N FL). unfold vtable_bytes. rewrite !app_length, !put_length, put_each, seq_length. lia.
Qed.
Lemma string_used_le : forall s b o b', create_string s b = (o, b') -> (Z.of_nat (used b') <= Z.of_nat (used b) + (12 + text_length s))%Z.
Proof.
  intros s b o b' E. unfold create_string in E. match type of E with (_, ?x) = _ => assert (b' = x) by congruence end. subst b'.
  match goal with |- context [push ?x ?y] => pose proof (push_used_le x y ltac:(cbn; lia)) as P end. rewrite prepend_used, app_length in P.
  pose proof (align_used_le (length (string_bytes s) + 1) 4 b ltac:(lia)) as A. cbn [length size] in P. unfold text_length. lia.
Qed.
Lemma bytes_used_le : forall l b o b', create_bytes l b = (o, b') -> used b' <= used b + (11 + length l).
Proof.
  intros l b o b' E. unfold create_bytes in E. match type of E with (_, ?x) = _ => assert (b' = x) by congruence end. subst b'.
  match goal with |- context [push ?x ?y] => pose proof (push_used_le x y ltac:(cbn; lia)) as P end. rewrite prepend_used in P.
  pose proof (align_used_le (length l) 4 b ltac:(lia)) as A. cbn [size] in P. lia.
Qed.
Lemma vector_used_le : forall l b o b', create_vector l b = (o, b') -> used b' <= used b + (11 + 8 * length l).
Proof.
  intros l b o b' E. unfold create_vector in E. match type of E with (_, ?x) = _ => assert (b' = x) by congruence end. subst b'.
  match goal with |- context [push ?x ?y] => pose proof (push_used_le x y ltac:(cbn; lia)) as P end. cbn [size] in P.
  pose proof (align_used_le (4 * length l) 4 b ltac:(lia)) as A.
  assert (K : forall l b, used (fold_right (fun o b => push (FOff o) b) b l) <= used b + 8 * length l).
  { clear. induction l as [|x l IH]; intros b; cbn [fold_right length]; [lia|].
    pose proof (push_used_le (FOff x) (fold_right (fun o b => push (FOff o) b) b l) ltac:(cbn; lia)) as P. cbn [size] in P. specialize (IH b). lia. }
  specialize (K l (align (4 * length l) 4 b)). lia.
Qed.
Ltac small_table E := match type of E with create_table ?l ?b = (?t, ?b') =>
  apply table_used_le in E;
  [|repeat first [apply Forall_nil | apply Forall_cons; [cbn [snd fst size]; lia|]]]; cbn [sizes fold_right snd size] in E end.
Lemma opt_used_le : forall n v b t b', create_table (opt 0 n v) b = (t, b') -> In n [1; 2; 4; 8] -> used b' <= used b + 35.
Proof.
  intros n v b t b' E IN. unfold opt in E.
  assert (n <> 0 /\ n <= 8) by (cbn in IN; lia).
  destruct (v =? 0)%Z; small_table E; lia.
Qed.
Lemma w_state_used_le : forall v b t b', w_state v b = (t, b') -> (Z.of_nat (used b') <= Z.of_nat (used b) + (70 + mass_value v))%Z.
Proof.
  intros v b t b' E. unfold w_state in E. destruct (w_value v b) as [p b1] eqn:W.
  assert (K1 : used b' <= used b1 + 29) by (unfold opt in E; destruct (_ =? 0)%Z; cbn [app] in E; small_table E; lia).
  assert (K : (Z.of_nat (used b1) <= Z.of_nat (used b) + (41 + mass_value v))%Z); [|lia].
  destruct v as [x|x|x|x|x|x|x|x|x|x|x|[s|]|i|i| |z]; cbn [w_value mass_value] in *;
    try (apply opt_used_le in W; [lia|cbn; tauto]).
  - destruct x; small_table W; lia.
  - destruct (f32_eqb x 0); small_table W; lia.
  - destruct (f64_eqb x 0); small_table W; lia.
  - destruct (create_string s b) as [o b2] eqn:C. apply string_used_le in C. small_table W. lia.
  - small_table W. lia.
  - small_table W. lia.
  - small_table W. lia.
Qed.
Lemma strings_used_le : forall names l b l' b', fold_left add_string names (l, b) = (l', b') ->
  (Z.of_nat (used b') <= Z.of_nat (used b) + sum (map (fun s => 12 + text_length s) names))%Z /\ length l' = length l + length names.
Proof.
  induction names as [|s names IH]; intros l b l' b' E; cbn [fold_left map sum fold_right length] in *.
  - assert (l' = l) by congruence. assert (b' = b) by congruence. subst. lia.
  - unfold add_string at 2 in E. destruct (create_string s b) as [o b1] eqn:C. apply string_used_le in C.
    apply IH in E. rewrite app_length in E. cbn [length] in E. fold (sum (map (fun s => 12 + text_length s)%Z names)). lia.
Qed.
Lemma w_contract_used_le : forall name ver names ks b t b', w_contract name ver names ks b = (t, b') ->
  (Z.of_nat (used b') <= Z.of_nat (used b) +
     (143 + 3 * (text_length name + sum (map (fun s => 9 + text_length s) names) + Z.of_nat (length ks))))%Z.
Proof.
  intros name [[v1 v2] v3] names ks b t b' E. unfold w_contract in E.
  destruct (create_string name b) as [n b1] eqn:E1. destruct (create_table _ b1) as [cid b2] eqn:E2.
  change (fold_left _ names ([], b2)) with (fold_left add_string names ([], b2)) in E.
  destruct (fold_left add_string names ([], b2)) as [os b3] eqn:E3.
  destruct (create_vector os b3) as [nv b4] eqn:E4. destruct (create_bytes ks b4) as [kv b5] eqn:E5.
  destruct (create_table _ b5) as [cs b6] eqn:E6.
  assert (K2 : used b2 <= used b1 + 39).
  { unfold opt in E2. repeat match type of E2 with context [(?x =? 0)%Z] => destruct (x =? 0)%Z end; cbn [app] in E2; small_table E2; lia. }
  apply string_used_le in E1. apply strings_used_le in E3. apply vector_used_le in E4. apply bytes_used_le in E5.
  small_table E6. small_table E. destruct E3 as [E3 L3]. cbn [length] in L3.
  rewrite (sum_shift _ (fun s => 0 + text_length s)%Z (fun s => 9 + text_length s)%Z 9 names) by (intros; lia).
  rewrite (sum_shift _ (fun s => 0 + text_length s)%Z (fun s => 12 + text_length s)%Z 12 names) in E3 by (intros; lia).
  assert (NN : (0 <= sum (map (fun s => 0 + text_length s)%Z names))%Z).
  { clear. induction names as [|s names IH]; cbn [map sum fold_right]; [lia|]. fold (sum (map (fun s => 0 + text_length s)%Z names)).
    pose proof (text_nonneg s). lia. }
  pose proof (text_nonneg name). lia.
Qed.

(** The room each part may take. *)
Definition room_state (x : option fbval) : Z := match x with Some v => (100 + mass_value v)%Z | None => 27%Z end.
Definition room_object (o : fb_object) : Z := (46 + 8 * Z.of_nat (length (some_list (fo_states o))))%Z.
Definition room_contract (c : fb_contract) : Z := (170 + 3 * mass_contract c)%Z.
Definition room (s : ser) : Z :=
  (sum (map room_contract (sr_contracts s)) + sum (map room_state (sr_states s)) + sum (map room_object (sr_objects s)))%Z.

Section Room.
Variable b : baseline.
Definition enough (s : ser) (w : wr) (s' : ser) (w' : wr) : Prop :=
  (Z.of_nat (used (wb w')) - Z.of_nat (used (wb w)) <= room s' - room s)%Z /\
  length (w_cs w') + length (sr_contracts s) = length (w_cs w) + length (sr_contracts s') /\
  length (w_ss w') + length (sr_states s) = length (w_ss w) + length (sr_states s') /\
  length (w_os w') + length (sr_objects s) = length (w_os w) + length (sr_objects s').
Lemma enough_refl : forall s w, enough s w s w.
Proof. intros s w. unfold enough. lia. Qed.
Lemma enough_trans : forall s w s1 w1 s2 w2, enough s w s1 w1 -> enough s1 w1 s2 w2 -> enough s w s2 w2.
Proof. intros. unfold enough in *. lia. Qed.

Lemma ser_state_parts : forall o s id i s', ser_state b o s id = (Ok i, s') ->
  exists x, sr_states s' = sr_states s ++ [x] /\ sr_contracts s' = sr_contracts s /\ sr_objects s' = sr_objects s.
Proof.
  intros o s id i s' SE. unfold ser_state in SE. destruct (bind_state b id o) as [hh|e|]; try discriminate SE.
  destruct (state_get b (pid_type id) hh) as [v|e|] eqn:SG; try discriminate SE.
  destruct (ser_value v) as [x|e|] eqn:SV; try discriminate SE.
  assert (ES := f_equal snd SE). cbn [snd] in ES. subst s'. exists x.
  destruct (pid_type id) as [p|p]; try destruct p; cbn [sr_states sr_contracts sr_objects]; auto.
Qed.
Lemma out_state_enough : forall o s w id h s' w', out_state b o s w id = (Ok h, s', w') ->
  enough s w s' w' /\ exists i, ser_state b o s id = (Ok i, s').
Proof.
  intros o s w id h s' w' E. unfold out_state in E. destruct (ser_state b o s id) as [[i|e|] s1] eqn:SE; try discriminate E.
  destruct (ser_state_parts _ _ _ _ _ SE) as (x & SS & SC & SO). rewrite SS, last_last in E.
  destruct (match x with Some v => w_state v (wb w) | None => (WIP_DUMMY, wb w) end) as [p b1] eqn:W1.
  destruct (w_state_handle i b1) as [h' b2] eqn:W2.
  assert (K2 : used b2 <= used b1 + 27) by (unfold w_state_handle, opt in W2; destruct (_ =? 0)%Z; small_table W2; lia).
  assert (s' = s1) by congruence. assert (w' = mkWr b2 (w_cs w) (w_ss w ++ [p]) (w_os w)) by congruence. subst s' w'.
  split; [|eauto]. unfold enough, room. rewrite SS, SC, SO, map_app, sum_app, !app_length. cbn [map sum fold_right wb w_cs w_ss w_os length].
  assert (K : (Z.of_nat (used b1) <= Z.of_nat (used (wb w)) + (room_state x - 27))%Z).
  { destruct x as [v|]; cbn [room_state]; [apply w_state_used_le in W1; lia|]. assert (b1 = wb w) by congruence. subst. lia. }
  rewrite app_length. cbn [length]. lia.
Qed.
Lemma out_states_enough : forall ids o s w l s' w', out_states b o s w ids = (Ok l, s', w') ->
  enough s w s' w' /\ exists idx, ser_states b o s ids = (Ok idx, s') /\ length idx = length l.
Proof.
  induction ids as [|id ids IH]; intros o s w l s' w' E; cbn [out_states ser_states] in *.
  - assert (s' = s) by congruence. assert (w' = w) by congruence. assert (l = []) by congruence. subst. split; [apply enough_refl|]. exists []. auto.
  - destruct (out_state b o s w id) as [[[h|e|] s1] w1] eqn:E1; try discriminate E.
    destruct (out_states b o s1 w1 ids) as [[[r|e|] s2] w2] eqn:E2; try discriminate E.
    apply out_state_enough in E1. apply IH in E2. destruct E1 as (N1 & i & SE). destruct E2 as (N2 & idx & SE2 & L2).
    assert (s' = s2) by congruence. assert (w' = w2) by congruence. assert (l = h :: r) by congruence. subst.
    split; [eapply enough_trans; eassumption|]. rewrite SE, SE2. exists (i :: idx). cbn [length]. split; [reflexivity|congruence].
Qed.
Lemma out_object_enough : forall c cidx ct s w o u s' w', out_object b c cidx ct s w o = (Ok u, s', w') -> enough s w s' w'.
Proof.
  intros c cidx ct s w o u s' w' E. unfold out_object in E.
  destruct (out_states b o s w (state_ids (ci_ty c) (ci_handle c))) as [[[l|e|] s1] w1] eqn:E1; try discriminate E.
  apply out_states_enough in E1. destruct E1 as (N1 & idx & S1 & L1).
  destruct (w_object ct l (wb w1)) as [t bb] eqn:WO.
  assert (E' : s' = snd (ser_object b c cidx s o)) by congruence. unfold ser_object in E'. rewrite S1 in E'. cbn [snd] in E'.
  assert (w' = mkWr bb (w_cs w1) (w_ss w1) (w_os w1 ++ [t])) by congruence. subst s' w'.
  unfold w_object in WO. destruct (create_vector l (wb w1)) as [v b2] eqn:CV. apply vector_used_le in CV. small_table WO.
  eapply enough_trans; [exact N1|]. unfold enough, room. cbn [sr_contracts sr_states sr_objects wb w_cs w_ss w_os].
  rewrite map_app, sum_app, !app_length. cbn [map sum fold_right length]. unfold room_object at 2. cbn [fo_states some_list]. lia.
Qed.
Lemma out_objects_enough : forall ord c cidx ct s w u s' w', out_objects b c cidx ct s w ord = (Ok u, s', w') -> enough s w s' w'.
Proof.
  induction ord as [|o ord IH]; intros c cidx ct s w u s' w' E; cbn [out_objects] in E.
  - assert (s' = s) by congruence. assert (w' = w) by congruence. subst. apply enough_refl.
  - destruct (out_object b c cidx ct s w o) as [[[x|e|] s1] w1] eqn:E1; try discriminate E.
    eapply enough_trans; [eapply out_object_enough; exact E1|eapply IH; exact E].
Qed.
Lemma out_serialize_enough : forall s w c ord u s' w', out_serialize b s w c ord = (Ok u, s', w') -> enough s w s' w'.
Proof.
  intros s w c ord u s' w' E. unfold out_serialize in E. destruct (contract_data_of b (ci_handle c)) as [cd|e|]; try discriminate E.
  destruct (ser_types (ct_states (ci_ty c))) as [ks|e|]; try discriminate E. cbv zeta in E.
  destruct (w_contract (cid_name (ct_id (ci_ty c))) (cid_ver (ct_id (ci_ty c))) (ct_state_names (ci_ty c)) (map kind_byte ks) (wb w)) as [t bb] eqn:W.
  destruct (N.eqb _ 0); [discriminate E|].
  match type of E with (let '(_, _) := ?x in _) = _ => destruct x as [ct b2] eqn:CH end.
  assert (K2 : used b2 <= used bb + 27).
  { unfold w_contract_handle, opt in CH. match type of CH with context [if ?x then _ else _] => destruct x end; small_table CH; lia. }
  apply out_objects_enough in E. apply w_contract_used_le in W. rewrite map_length in W.
  unfold enough, room in *. cbn [sr_contracts sr_states sr_objects wb w_cs w_ss w_os] in E. rewrite map_app, sum_app, !app_length in E.
  cbn [map sum fold_right length] in E. unfold room_contract at 3 in E. cbn [mass_contract] in E. lia.
Qed.
Lemma out_all_enough : forall l s w u s' w', out_all b s w l = (Ok u, s', w') -> enough s w s' w'.
Proof.
  induction l as [|[c ord] l IH]; intros s w u s' w' E; cbn [out_all] in E.
  - assert (s' = s) by congruence. assert (w' = w) by congruence. subst. apply enough_refl.
  - destruct (out_serialize b s w c ord) as [[[x|e|] s1] w1] eqn:E1; try discriminate E.
    eapply enough_trans; [eapply out_serialize_enough; exact E1|eapply IH; exact E].
Qed.
Lemma room_set : forall states i v, nth_error states i = Some None -> mass_value v = 0%Z ->
  sum (map room_state (list_set states i (Some v))) = (sum (map room_state states) + 73)%Z.
Proof.
  induction states as [|x states IH]; intros [|i] v N M; cbn [nth_error list_set map sum fold_right] in *; try discriminate N.
  - assert (x = None) by congruence. subst x. cbn [room_state]. rewrite M. lia.
  - fold (sum (map room_state (list_set states i (Some v)))). fold (sum (map room_state states)). rewrite (IH i v N M). lia.
Qed.
Lemma out_rewrite_enough : forall t look mk pairs states ws bb st ws' bb', (forall j, mass_value (mk j) = 0%Z) ->
  out_rewrite b t look mk pairs states ws bb = Ok (st, ws', bb') ->
  (Z.of_nat (used bb') - Z.of_nat (used bb) <= sum (map room_state st) - sum (map room_state states))%Z /\ length ws' = length ws.
Proof.
  intros t look mk. induction pairs as [|[h i] pairs IH]; intros states ws bb st ws' bb' M E; cbn [out_rewrite] in *.
  - assert (bb' = bb) by congruence. assert (st = states) by congruence. assert (ws' = ws) by congruence. subst. lia.
  - destruct (state_get b t h) as [v|e|]; try discriminate E. destruct (look v) as [j|]; [|discriminate E].
    destruct (nth_error states i) as [[x|]|] eqn:N; try discriminate E.
    destruct (w_state (mk j) bb) as [p b1] eqn:W. apply w_state_used_le in W.
    apply IH in E; [|exact M]. destruct E as [U L]. rewrite (room_set _ _ _ N (M j)) in U. rewrite M in W. rewrite L, list_set_length. lia.
Qed.
Lemma finish_used_le : forall cs ss os bb, pw (ma bb) ->
  length (w_finish cs ss os bb) <= used bb + 8 * (length cs + length ss + length os) + 100.
Proof.
  intros cs ss os bb PW. unfold w_finish. destruct (create_vector cs bb) as [c b1] eqn:E1. destruct (create_vector ss b1) as [s b2] eqn:E2.
  destruct (create_vector os b2) as [o b3] eqn:E3. destruct (create_table [(2, FOff o); (1, FOff s); (0, FOff c)] b3) as [r b4] eqn:E4.
  assert (MV : forall l b o b', create_vector l b = (o, b') -> pw (ma b) -> pw (ma b')).
  { clear. intros l q o q' E P. unfold create_vector in E. match type of E with (_, ?x) = _ => assert (q' = x) by congruence end. subst q'.
    rewrite push_ma. apply pw_max; [|unfold pw; cbn; lia]. assert (PA : pw (ma (align (4 * length l) 4 q))) by (cbn [align ma]; apply pw_max; [exact P|unfold pw; lia]).
    revert PA. generalize (align (4 * length l) 4 q). clear. induction l as [|x l IH]; intros q P; cbn [fold_right]; [exact P|].
    rewrite push_ma. apply pw_max; [apply IH; exact P|unfold pw; cbn; lia]. }
  pose proof (MV _ _ _ _ E3 (MV _ _ _ _ E2 (MV _ _ _ _ E1 PW))) as PW3.
  assert (PW4 : pw (ma b4)) by (eapply create_table_ma; [exact E4|repeat (constructor; [exact I|]); constructor|exact PW3]).
  apply vector_used_le in E1. apply vector_used_le in E2. apply vector_used_le in E3. small_table E4.
  unfold finish. fold (used (push (FOff r) (prepend prefix (align 8 (ma b4) b4)))).
  pose proof (push_used_le (FOff r) (prepend prefix (align 8 (ma b4) b4)) ltac:(cbn; lia)) as P. cbn [size] in P. rewrite prepend_used in P.
  change (length prefix) with 4 in P.
  assert (MA : ma b4 <> 0 /\ ma b4 <= 8) by (unfold pw in PW4; lia).
  pose proof (align_used_le 8 (ma b4) b4 (proj1 MA)) as A. lia.
Qed.
End Room.

(** The bound for the whole file. *)
Section Whole.
Variable b : baseline.
Hypothesis values : forall t h v, st_at b t h = Some v -> typed v.

Lemma Forall2_length : forall A B (P : A -> B -> Prop) l m, Forall2 P l m -> length l = length m.
Proof. intros A B P l m F. induction F; cbn [length]; congruence. Qed.
Lemma room_states_all : forall st vs, all_some st = Some vs ->
  sum (map room_state st) = (100 * Z.of_nat (length vs) + sum (map mass_value vs))%Z /\ length vs = length st.
Proof.
  induction st as [|[x|] st IH]; intros vs E; cbn [all_some] in E; [|destruct (all_some st) as [r|]; [|discriminate E]|discriminate E].
  - assert (vs = []) by congruence. subst. cbn. split; [lia|reflexivity].
  - assert (vs = x :: r) by congruence. subst. destruct (IH r eq_refl) as [R L]. cbn [map sum fold_right length room_state].
    fold (sum (map room_state st)). fold (sum (map mass_value r)). rewrite R. lia.
Qed.
Lemma room_contracts_all : forall cs, Forall (fun c => tables_contract c = 3%Z) cs ->
  sum (map room_contract cs) = (170 * Z.of_nat (length cs) + 3 * sum (map mass_contract cs))%Z.
Proof.
  intros cs F. induction F as [|c cs C F IH]; cbn [map sum fold_right length]; [lia|].
  fold (sum (map room_contract cs)). fold (sum (map mass_contract cs)). unfold room_contract at 1. lia.
Qed.
Lemma room_objects_all : forall os,
  (sum (map room_object os) + 8 * Z.of_nat (length os) <= 54 * sum (map tables_object os))%Z.
Proof.
  induction os as [|o os IH]; cbn [map sum fold_right length]; [lia|].
  fold (sum (map room_object os)). fold (sum (map tables_object os)). unfold room_object at 1, tables_object at 1.
  destruct (fo_contract o); cbn [one]; lia.
Qed.
Lemma mass_nonneg : forall vs, (0 <= sum (map mass_value vs))%Z.
Proof.
  induction vs as [|v vs IH]; cbn [map sum fold_right]; [lia|]. fold (sum (map mass_value vs)).
  assert (0 <= mass_value v)%Z by (destruct v as [x|x|x|x|x|x|x|x|x|x|x|[s|]|i|i| |z]; cbn [mass_value]; try lia; apply text_nonneg). lia.
Qed.
Lemma saved_size : forall l ord sr fb bytes, save b l ord = Ok bytes -> Forall (fun p => writable (ci_ty (fst p))) l ->
  serialize_all b ser_new l = (Ok tt, sr) -> ser_finish b sr (fst (ord sr)) (snd (ord sr)) = Ok (Some fb) ->
  (110 * saved_tables l + 3 * mass fb + 100 < 2 ^ 31)%Z ->
  (Z.of_nat (length bytes) <= 110 * saved_tables l + 3 * mass fb + 100)%Z.
Proof.
  intros l ord sr fb bytes S WR SA SF SM. rewrite <- (saved_count b l _ _ sr fb SA SF) in *. unfold save in S.
  destruct (serialize_all_count b _ _ _ SA ltac:(split; constructor)) as [[UC _] _].
  destruct (out_all b ser_new wr_new l) as [[r s] w] eqn:OA. destruct (out_all_ser b values _ _ _ _ _ _ OA WR) as [SE ST].
  rewrite SE in SA. assert (r = Ok tt) by congruence. assert (s = sr) by congruence. subst r s. specialize (ST tt eq_refl).
  apply out_all_enough in OA. unfold out_finish in S.
  assert (F1 : forall j, in_format (FContractDataHandle (as_u16 j))) by (intros j; cbn [in_format]; unfold as_u16; apply N.mod_lt; discriminate).
  assert (F2 : forall j, in_format (FObjectHandle (as_u32 j))) by (intros j; cbn [in_format]; unfold as_u32; apply N.mod_lt; discriminate).
  pose proof (out_rewrite_ser b (TPrim TContractDataHandle) (look_contract sr) (fun j => FContractDataHandle (as_u16 j)) (fst (ord sr))
                (sr_states sr) (w_ss w) (wb w) F1) as Q1.
  destruct (out_rewrite b (TPrim TContractDataHandle) (look_contract sr) (fun j => FContractDataHandle (as_u16 j)) (fst (ord sr)) (sr_states sr) (w_ss w) (wb w))
    as [[[st1 ws1] bb1]|e|] eqn:R1; try discriminate S.
  destruct Q1 as (RW1 & M1 & K1).
  pose proof (out_rewrite_ser b (TPrim TObjectHandle) (look_object sr) (fun j => FObjectHandle (as_u32 j)) (snd (ord sr)) st1 ws1 bb1 F2) as Q2.
  destruct (out_rewrite b (TPrim TObjectHandle) (look_object sr) (fun j => FObjectHandle (as_u32 j)) (snd (ord sr)) st1 ws1 bb1)
    as [[[st2 ws2] bb2]|e|] eqn:R2; try discriminate S.
  destruct Q2 as (RW2 & M2 & K2).
  apply out_rewrite_enough in R1; [|reflexivity]. apply out_rewrite_enough in R2; [|reflexivity].
  destruct R1 as [U1 L1]. destruct R2 as [U2 L2].
  unfold ser_finish in SF. rewrite RW1, RW2 in SF. destruct (all_some st2) as [vs|] eqn:AS; [|discriminate SF].
  assert (fb = mkFb (Some (sr_contracts sr)) (Some vs) (Some (sr_objects sr))) by congruence. subst fb.
  assert (EB : bytes = w_finish (w_cs w) ws2 (w_os w) bb2) by congruence. rewrite EB. clear S EB SF.
  destruct (room_states_all _ _ AS) as [RS LS].
  pose proof (room_contracts_all _ UC) as RC. pose proof (room_objects_all (sr_objects sr)) as RO.
  assert (TS : forall vs, (Z.of_nat (length vs) <= sum (map tables_state vs))%Z).
  { clear. induction vs as [|v vs IH]; cbn [map sum fold_right length]; [lia|]. fold (sum (map tables_state vs)). destruct v; cbn [tables_state]; lia. }
  assert (TC : sum (map tables_contract (sr_contracts sr)) = (3 * Z.of_nat (length (sr_contracts sr)))%Z).
  { clear - UC. induction UC as [|x l X F IH]; [reflexivity|]. cbn [map sum fold_right length]. fold (sum (map tables_contract l)). lia. }
  destruct OA as (OU & OC & OS & OO). unfold room in OU. cbn [ser_new wr_new sr_contracts sr_states sr_objects w_cs w_ss w_os wb length map sum fold_right used bu] in *.
  change (used {| bu := []; vts := []; ma := 1 |}) with 0 in OU.
  unfold tables, mass in *. cbn [fb_contracts fb_states fb_objects some_list] in *.
  pose proof (mass_nonneg vs) as MN. specialize (TS vs).
  set (TO := sum (map tables_object (sr_objects sr))) in *. set (TV := sum (map tables_state vs)) in *.
  set (RB := sum (map room_object (sr_objects sr))) in *. set (RA := sum (map room_state (sr_states sr))) in *.
  set (MC := sum (map mass_contract (sr_contracts sr))) in *. set (MV := sum (map mass_value vs)) in *.
  assert (TN : (0 <= TO)%Z).
  { unfold TO. clear. induction (sr_objects sr) as [|o os IH]; cbn [map sum fold_right]; [lia|].
    fold (sum (map tables_object os)). unfold tables_object at 1. destruct (fo_contract o); cbn [one]; lia. }
  assert (SB2 : small bb2) by (unfold small; change (2 ^ 31)%Z with 2147483648%Z in *; lia).
  assert (SM1 : small bb1) by (eapply more_small; eassumption).
  assert (SM0 : small (wb w)) by (eapply more_small; eassumption).
  assert (R0 : rep ser_new wr_new) by (split; [apply sound_new|split; [|split]; constructor]).
  destruct (proj2 ST SM0 R0) as [G0 [SB P]]. destruct P as (P1 & P2 & P3).
  destruct (K1 SM1 SB P2) as (G1 & S1 & FS1). destruct (K2 SB2 S1 FS1) as (G2 & S2 & FS2).
  pose proof (finish_used_le (w_cs w) ws2 (w_os w) bb2 (proj2 S2)) as FU.
  pose proof (Forall2_length _ _ _ _ _ FS2) as FL. lia.
Qed.
End Whole.
