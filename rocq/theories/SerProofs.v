(** Proofs about the serializer. *)
From Verif Require Import BaseProofs PropertiesTags.
From Verif Require Export DeserProofs PropertiesDeser PropertiesRecord.
Open Scope nat_scope.

Notation tcon := (TPrim TContractDataHandle).

(** ** One call *)

(** A field of an object, read through the API. *)
Record sfield : Type := mkSf { sf_o : index; sf_i : nat; sf_t : ptype; sf_h : index; sf_v : dynprop }.
Definition reads (b : baseline) (o : index) (f : sfield) (id : prop_id) : Prop :=
  sf_o f = o /\ sf_i f = pid_idx id /\ sf_t f = pid_type id /\
  bind_state b id o = Ok (sf_h f) /\ state_get b (pid_type id) (sf_h f) = Ok (sf_v f).
Definition is_prim_val (v : dynprop) : Prop := exists p, v = PPrim p.

Definition enc (v : dynprop) : option fbval := match ser_value v with Ok x => x | _ => None end.

Definition add_field (s : ser) (f : sfield) : ser :=
  let idx := length (sr_states s) in
  let states := sr_states s ++ [enc (sf_v f)] in
  match sf_t f with
  | TPrim TObjectHandle =>
      mkSer (sr_contracts s) states (sr_objects s) (hm_objects s) (hm_contracts s)
            (hm_cstates s) (bm_insert index_eqb Nat.eqb (sf_h f) idx (hm_ostates s))
  | TPrim TContractDataHandle =>
      mkSer (sr_contracts s) states (sr_objects s) (hm_objects s) (hm_contracts s)
            (bm_insert index_eqb Nat.eqb (sf_h f) idx (hm_cstates s)) (hm_ostates s)
  | _ =>
      mkSer (sr_contracts s) states (sr_objects s) (hm_objects s) (hm_contracts s)
            (hm_cstates s) (hm_ostates s)
  end.

Lemma ser_value_prim v : is_prim_val v -> ser_value v = Ok (enc v).
Proof. intros [p ->]. reflexivity. Qed.

Lemma ser_state_ok b o s f id : reads b o f id -> is_prim_val (sf_v f) ->
  ser_state b o s id = (Ok (as_u32 (length (sr_states s))), add_field s f).
Proof.
  intros [_ [_ [Ht [Hb Hg]]]] Hp. unfold ser_state, add_field. rewrite Hb, Hg, (ser_value_prim _ Hp), Ht.
  destruct (pid_type id) as [p|p]; [|destruct p]; reflexivity.
Qed.

Lemma add_field_frame s f :
  sr_contracts (add_field s f) = sr_contracts s /\ sr_objects (add_field s f) = sr_objects s /\
  hm_objects (add_field s f) = hm_objects s /\ hm_contracts (add_field s f) = hm_contracts s /\
  sr_states (add_field s f) = sr_states s ++ [enc (sf_v f)].
Proof. unfold add_field. destruct (sf_t f) as [p|p]; [|destruct p]; cbn [sr_contracts sr_objects hm_objects hm_contracts sr_states]; repeat split; reflexivity. Qed.

Lemma add_fields_frame : forall fl s,
  sr_contracts (fold_left add_field fl s) = sr_contracts s /\ sr_objects (fold_left add_field fl s) = sr_objects s /\
  hm_objects (fold_left add_field fl s) = hm_objects s /\ hm_contracts (fold_left add_field fl s) = hm_contracts s /\
  sr_states (fold_left add_field fl s) = sr_states s ++ map (fun f => enc (sf_v f)) fl.
Proof.
  induction fl as [|f fl IH]; intros s; cbn.
  - rewrite app_nil_r. auto 10.
  - destruct (IH (add_field s f)) as [H1 [H2 [H3 [H4 H5]]]].
    destruct (add_field_frame s f) as [G1 [G2 [G3 [G4 G5]]]].
    rewrite H1, H2, H3, H4, H5, G1, G2, G3, G4, G5, <- app_assoc. auto 10.
Qed.

Lemma ser_states_ok b o : forall fl ids s,
  Forall2 (reads b o) fl ids -> Forall (fun f => is_prim_val (sf_v f)) fl ->
  ser_states b o s ids = (Ok (map as_u32 (seq (length (sr_states s)) (length fl))), fold_left add_field fl s).
Proof.
  induction fl as [|f fl IH]; intros ids s H Hp; inversion H as [|x id y ids' H1 H2]; subst; cbn [ser_states fold_left length seq map].
  - reflexivity.
  - inversion Hp as [|x y Hp1 Hp2]; subst. rewrite (ser_state_ok _ _ _ _ _ H1 Hp1), (IH _ _ H2 Hp2).
    destruct (add_field_frame s f) as [_ [_ [_ [_ E]]]]. rewrite E, app_length. cbn. rewrite Nat.add_1_r. reflexivity.
Qed.

Definition typed_states (b : baseline) : Prop := forall t h v, state_get b t h = Ok v -> prop_type v = t.
Definition prim_ids (ids : list prop_id) : Prop := forall id, In id ids -> exists p, pid_type id = TPrim p.
Definition resolves (b : baseline) (o : index) (id : prop_id) : Prop := exists f, reads b o f id.

Lemma prim_typed b id h v p :
  typed_states b -> pid_type id = TPrim p -> state_get b (pid_type id) h = Ok v -> is_prim_val v.
Proof. intros Ht Ep Hg. apply Ht in Hg. rewrite Ep in Hg. destruct v as [q|q]; [exists q; reflexivity|destruct q; discriminate]. Qed.

Lemma state_get_no_panic b t h : state_get b t h <> Panic.
Proof. unfold state_get, tm_get. destruct (b_states b t) as [a|]; [|discriminate]. destruct (get a h); discriminate. Qed.
Lemma bind_state_no_panic b id o : bind_state b id o <> Panic.
Proof.
  unfold bind_state, object_bind. destruct (get (b_objects b) o) as [ob|]; [|discriminate].
  destruct (negb _); [discriminate|]. destruct (nth_error _ _); discriminate.
Qed.

Lemma ser_states_cases b o : typed_states b -> forall ids s, prim_ids ids ->
  match ser_states b o s ids with
  | (Ok l, s') => exists fl, Forall2 (reads b o) fl ids /\ Forall (fun f => is_prim_val (sf_v f)) fl
  | (Err _, _) => exists id, In id ids /\ ~ resolves b o id
  | (Panic, _) => False
  end.
Proof.
  intros Ht. induction ids as [|id ids IH]; intros s Hp; cbn.
  - exists []. split; constructor.
  - assert (Hp' : prim_ids ids) by (intros x Hx; apply Hp; right; auto).
    destruct (Hp id (or_introl eq_refl)) as [p Ep].
    destruct (bind_state b id o) as [h|e|] eqn:Eb; [| |destruct (bind_state_no_panic _ _ _ Eb)].
    2:{ unfold ser_state. rewrite Eb. exists id. split; [left; auto|]. intros [f [_ [_ [_ [H _]]]]]. congruence. }
    destruct (state_get b (pid_type id) h) as [v|e|] eqn:Eg; [| |destruct (state_get_no_panic _ _ _ Eg)].
    2:{ unfold ser_state. rewrite Eb, Eg. exists id. split; [left; auto|]. intros [f [_ [_ [_ [H1 H2]]]]]. congruence. }
    pose proof (prim_typed _ _ _ _ _ Ht Ep Eg) as Hpv.
    assert (Hr : reads b o (mkSf o (pid_idx id) (pid_type id) h v) id) by (repeat split; auto).
    rewrite (ser_state_ok _ _ _ _ _ Hr Hpv). set (s1 := add_field s _). specialize (IH s1 Hp').
    destruct (ser_states b o s1 ids) as [[l|e|] s2]; auto.
    + destruct IH as [fl [H1 H2]]. exists (mkSf o (pid_idx id) (pid_type id) h v :: fl). split; constructor; auto.
    + destruct IH as [id' [H1 H2]]. exists id'. split; [right|]; auto.
Qed.

(** ** Objects *)
Definition add_object (cidx : N) (s : ser) (p : index * list sfield) : ser :=
  let s1 := fold_left add_field (snd p) s in
  mkSer (sr_contracts s1) (sr_states s1)
    (sr_objects s1 ++ [mkFbObject (Some cidx) (Some (map as_u32 (seq (length (sr_states s)) (length (snd p)))))])
    (bm_insert index_eqb Nat.eqb (fst p) (length (sr_objects s1)) (hm_objects s1))
    (hm_contracts s1) (hm_cstates s1) (hm_ostates s1).

Definition read_object (b : baseline) (c : contract_inst) (p : index * list sfield) : Prop :=
  Forall2 (reads b (fst p)) (snd p) (state_ids (ci_ty c) (ci_handle c)) /\
  Forall (fun f => is_prim_val (sf_v f)) (snd p).

Lemma ser_object_ok b c cidx s p : read_object b c p ->
  ser_object b c cidx s (fst p) = (Ok tt, add_object cidx s p).
Proof.
  intros [H1 H2]. unfold ser_object, add_object. rewrite (ser_states_ok _ _ _ _ _ H1 H2). reflexivity.
Qed.
Lemma ser_objects_ok b c cidx : forall ps s, Forall (read_object b c) ps ->
  ser_objects b c cidx s (map fst ps) = (Ok tt, fold_left (add_object cidx) ps s).
Proof.
  induction ps as [|p ps IH]; intros s H; cbn; auto.
  inversion H as [|x y H1 H2]; subst. rewrite (ser_object_ok _ _ _ _ _ H1). apply IH; auto.
Qed.
Lemma ser_objects_cases b c cidx : typed_states b -> prim_ids (state_ids (ci_ty c) (ci_handle c)) ->
  forall ord s,
  match ser_objects b c cidx s ord with
  | (Ok _, _) => exists ps, map fst ps = ord /\ Forall (read_object b c) ps
  | (Err _, _) => exists o id, In o ord /\ In id (state_ids (ci_ty c) (ci_handle c)) /\ ~ resolves b o id
  | (Panic, _) => False
  end.
Proof.
  intros Ht Hp. induction ord as [|o ord IH]; intros s; cbn [ser_objects].
  - exists []. split; [reflexivity|constructor].
  - unfold ser_object. pose proof (ser_states_cases b o Ht _ s Hp) as Hc.
    destruct (ser_states b o s (state_ids (ci_ty c) (ci_handle c))) as [[l|e|] s1] eqn:E; auto.
    + destruct Hc as [fl [H1 H2]]. match goal with |- context [ser_objects b c cidx ?x ord] => specialize (IH x) end.
      destruct (ser_objects b c cidx _ ord) as [[u|e|] s2]; auto.
      * destruct IH as [ps [H3 H4]]. exists ((o, fl) :: ps). cbn. split; [congruence|]. constructor; auto. split; auto.
      * destruct IH as [o' [id [H3 [H4 H5]]]]. exists o', id. split; [right; auto|auto].
    + destruct Hc as [id [H3 H4]]. exists o, id. split; [left; auto|auto].
Qed.

(** ** Contracts *)
Lemma ser_types_ok ts :
  match ser_types ts with
  | Ok ks => Forall2 kind_is ks ts
  | Err _ => exists p, In (TVec p) ts
  | Panic => False
  end.
Proof.
  induction ts as [|[p|p] ts IH]; cbn.
  - constructor.
  - exists p. auto.
  - destruct (ser_types ts) as [ks|e|]; auto.
    + constructor; auto. exists p. split; auto. apply C28_conversion_denotes_the_type.
    + destruct IH as [q H]. eauto.
Qed.
Lemma kind_is_prim ks ts p : Forall2 kind_is ks ts -> ~ In (TVec p) ts.
Proof. induction 1 as [|k t ks ts [q [_ ->]] H IH]; cbn; [tauto|]. intros [E|E]; [discriminate|auto]. Qed.
Definition no_vec (C : contract_ty) : Prop := forall p, ~ In (TVec p) (ct_states C).
Lemma ser_contract_cases C :
  match ser_contract C with
  | Ok fc => no_vec C /\ describes C fc
  | Err _ => ~ no_vec C
  | Panic => False
  end.
Proof.
  unfold ser_contract. pose proof (ser_types_ok (ct_states C)) as H. destruct (ser_types (ct_states C)) as [ks|e|]; auto.
  - split; [intros p; eapply kind_is_prim; eauto|]. exists ks. auto.
  - destruct H as [p H]. intros Hn. exact (Hn p H).
Qed.

Lemma no_vec_ids C h : no_vec C -> prim_ids (state_ids C h).
Proof.
  intros Hn id Hin. apply In_nth_error in Hin. destruct Hin as [i Hi]. rewrite state_ids_nth in Hi.
  destruct (nth_error (ct_states C) i) as [t|] eqn:Et; [|discriminate]. cbn in Hi. injection Hi as <-. cbn.
  destruct t as [p|p]; [|eauto]. exfalso. apply (Hn p). eapply nth_error_In; eauto.
Qed.

Lemma nodup_app_l {A} (l m : list A) : NoDup (l ++ m) -> NoDup l.
Proof. induction l as [|a l IH]; intros H; [constructor|]. cbn in H. inversion H; subst. constructor; auto. intros Hi. apply H2. apply in_or_app; auto. Qed.

(** ** The fields seen so far *)
Fixpoint pick (t : ptype) (k : nat) (F : list sfield) : list (index * nat) :=
  match F with
  | [] => []
  | f :: r => (if ptype_eqb t (sf_t f) then [(sf_h f, k)] else []) ++ pick t (S k) r
  end.
Lemma pick_in t h i : forall F k,
  In (h, i) (pick t k F) <-> k <= i /\ exists f, nth_error F (i - k) = Some f /\ sf_t f = t /\ sf_h f = h.
Proof.
  induction F as [|f F IH]; intros k; cbn [pick].
  - split; [intros []|]. intros [_ [f [H _]]]. destruct (i - k); discriminate.
  - rewrite in_app_iff, IH. split.
    + intros [H|[H1 [g [H2 H3]]]].
      * destruct (ptype_eqb t (sf_t f)) eqn:Et; [|destruct H]. apply ptype_eqb_eq in Et. destruct H as [H|[]].
        injection H as <- <-. split; [lia|]. exists f. rewrite Nat.sub_diag. auto.
      * split; [lia|]. exists g. replace (i - k) with (S (i - S k)) by lia. auto.
    + intros [H1 [g [H2 [H3 H4]]]]. destruct (Nat.eq_dec i k) as [->|Hne].
      * rewrite Nat.sub_diag in H2. injection H2 as <-. left. rewrite (proj2 (ptype_eqb_eq _ _)) by auto. subst. left; auto.
      * right. split; [lia|]. exists g. replace (i - k) with (S (i - S k)) in H2 by lia. auto.
Qed.
Lemma pick_snoc t f : forall F k,
  pick t k (F ++ [f]) = pick t k F ++ (if ptype_eqb t (sf_t f) then [(sf_h f, k + length F)] else []).
Proof.
  induction F as [|g F IH]; intros k; cbn [pick app length].
  - rewrite app_nil_r, Nat.add_0_r. reflexivity.
  - rewrite IH, <- app_assoc. replace (S k + length F) with (k + S (length F)) by lia. reflexivity.
Qed.
Lemma pick_snd_nodup t : forall F k, NoDup (map snd (pick t k F)).
Proof.
  induction F as [|f F IH]; intros k; cbn [pick]; [constructor|]. rewrite map_app.
  destruct (ptype_eqb t (sf_t f)); cbn; auto. constructor; auto.
  intros H. apply in_map_iff in H. destruct H as [[h i] [E H]]. cbn in E. subst i. apply pick_in in H. lia.
Qed.

Definition key (f : sfield) : ptype * index := (sf_t f, sf_h f).

Record finv (s : ser) (F : list sfield) : Prop := {
  fi_st : sr_states s = map (fun f => enc (sf_v f)) F;
  fi_os : hm_ostates s = pick tobj 0 F;
  fi_cs : hm_cstates s = pick tcon 0 F
}.

Lemma fresh_pick f F t : ~ In (key f) (map key F) -> sf_t f = t ->
  bm_insert index_eqb Nat.eqb (sf_h f) (length F) (pick t 0 F) = pick t 0 F ++ [(sf_h f, length F)].
Proof.
  intros Hn Ht. apply bm_insert_fresh. apply (bm_fresh_true _ _ index_eqb_spec Nat.eqb_spec).
  intros h i Hin. apply pick_in in Hin. destruct Hin as [_ [g [H1 [H2 H3]]]]. rewrite Nat.sub_0_r in H1. split.
  - intros E. apply Hn. apply in_map_iff. exists g. split; [unfold key; congruence|]. eapply nth_error_In; eauto.
  - intros ->. rewrite (proj2 (nth_error_None F (length F))) in H1; [discriminate|lia].
Qed.

Lemma finv_snoc s F f : finv s F -> ~ In (key f) (map key F) -> finv (add_field s f) (F ++ [f]).
Proof.
  intros [H1 H2 H3] Hn. destruct (add_field_frame s f) as [_ [_ [_ [_ G]]]].
  assert (HL : length (sr_states s) = length F) by (rewrite H1, map_length; auto).
  constructor.
  - rewrite G, H1, map_app. reflexivity.
  - rewrite pick_snoc. unfold add_field. rewrite HL, H2, H3.
    destruct (sf_t f) as [p|p] eqn:Et; [|destruct p]; cbn; rewrite ?app_nil_r; auto.
    apply fresh_pick; auto.
  - rewrite pick_snoc. unfold add_field. rewrite HL, H2, H3.
    destruct (sf_t f) as [p|p] eqn:Et; [|destruct p]; cbn; rewrite ?app_nil_r; auto.
    apply fresh_pick; auto.
Qed.
Lemma finv_fold : forall fl s F, finv s F -> NoDup (map key (F ++ fl)) -> finv (fold_left add_field fl s) (F ++ fl).
Proof.
  induction fl as [|f fl IH]; intros s F Hf Hn; cbn [fold_left]; [rewrite app_nil_r; auto|].
  replace (F ++ f :: fl) with ((F ++ [f]) ++ fl) in * by (rewrite <- app_assoc; reflexivity).
  apply IH; auto. apply finv_snoc; auto.
  rewrite <- app_assoc, map_app in Hn. cbn in Hn. apply NoDup_remove_2 in Hn. intros H. apply Hn. apply in_or_app; auto.
Qed.

(** ** The objects seen so far: contract number, handle, fields *)
Definition sobj : Type := nat * index * list sfield.
Definition so_fields (p : sobj) : list sfield := snd p.
Definition so_obj (p : sobj) : index := snd (fst p).
Definition fields_of (objs : list sobj) : list sfield := flat_map so_fields objs.

Fixpoint tables (k : nat) (objs : list sobj) : list fb_object :=
  match objs with
  | [] => []
  | (n, o, fl) :: r =>
      mkFbObject (Some (N.of_nat n)) (Some (map as_u32 (seq k (length fl)))) :: tables (k + length fl) r
  end.
Lemma tables_snoc n o fl : forall objs k,
  tables k (objs ++ [(n, o, fl)]) =
  tables k objs ++ [mkFbObject (Some (N.of_nat n)) (Some (map as_u32 (seq (k + length (fields_of objs)) (length fl))))].
Proof.
  induction objs as [|[[m o'] gl] objs IH]; intros k; cbn [tables app fields_of flat_map so_fields snd].
  - cbn. rewrite Nat.add_0_r. reflexivity.
  - rewrite IH. rewrite app_length. unfold fields_of. do 5 f_equal. replace (k + (length gl + length (flat_map so_fields objs))) with (k + length gl + length (flat_map so_fields objs)) by lia. reflexivity.
Qed.
Definition off (objs : list sobj) (j : nat) : nat := length (fields_of (firstn j objs)).
Lemma tables_nth : forall objs k j,
  nth_error (tables k objs) j =
  option_map (fun p : sobj => mkFbObject (Some (N.of_nat (fst (fst p))))
     (Some (map as_u32 (seq (k + off objs j) (length (so_fields p)))))) (nth_error objs j).
Proof.
  induction objs as [|[[m o'] gl] objs IH]; intros k [|j]; cbn [tables nth_error option_map]; auto.
  - unfold off. cbn. rewrite Nat.add_0_r. reflexivity.
  - rewrite IH. destruct (nth_error objs j); cbn; auto. unfold off. cbn. rewrite app_length.
    unfold fields_of. do 4 f_equal. f_equal. lia.
Qed.
Lemma tables_length : forall objs k, length (tables k objs) = length objs.
Proof. induction objs as [|[[m o'] gl] objs IH]; intros k; cbn; auto. Qed.

Lemma off_nth : forall objs j p i f, nth_error objs j = Some p -> nth_error (so_fields p) i = Some f ->
  nth_error (fields_of objs) (off objs j + i) = Some f.
Proof.
  induction objs as [|q objs IH]; intros [|j] p i f Hj Hi; cbn in Hj; try discriminate.
  - injection Hj as ->. unfold off, fields_of. cbn. rewrite nth_error_app1; auto. apply nth_error_Some. congruence.
  - unfold off, fields_of. cbn. rewrite app_length, nth_error_app2 by lia.
    replace (length (so_fields q) + length (flat_map so_fields (firstn j objs)) + i - length (so_fields q))
      with (off objs j + i) by (unfold off, fields_of; lia).
    eapply IH; eauto.
Qed.
Lemma off_cover : forall objs k f, nth_error (fields_of objs) k = Some f ->
  exists j p i, nth_error objs j = Some p /\ nth_error (so_fields p) i = Some f /\ k = off objs j + i.
Proof.
  induction objs as [|q objs IH]; intros k f Hk.
  - destruct k; discriminate.
  - unfold fields_of in Hk. cbn in Hk. destruct (lt_dec k (length (so_fields q))) as [Hl|Hl].
    + rewrite nth_error_app1 in Hk by auto. exists 0, q, k. auto.
    + rewrite nth_error_app2 in Hk by lia. destruct (IH _ _ Hk) as [j [p [i [H1 [H2 H3]]]]].
      exists (S j), p, i. split; auto. split; auto. unfold off, fields_of in *. cbn. rewrite app_length. lia.
Qed.
Lemma off_lt objs j p : nth_error objs j = Some p -> forall j', j < j' -> off objs j + length (so_fields p) <= off objs j'.
Proof.
  revert j. induction objs as [|q objs IH]; intros [|j] Hj j' Hlt; cbn in Hj; try discriminate.
  - injection Hj as ->. destruct j' as [|j']; [lia|]. unfold off, fields_of. cbn. rewrite app_length. lia.
  - destruct j' as [|j']; [lia|]. pose proof (IH j Hj j' ltac:(lia)) as H.
    unfold off, fields_of in *. cbn. rewrite !app_length. lia.
Qed.
Lemma off_inj objs j p i j' p' i' :
  nth_error objs j = Some p -> nth_error objs j' = Some p' -> i < length (so_fields p) -> i' < length (so_fields p') ->
  off objs j + i = off objs j' + i' -> j = j' /\ i = i'.
Proof.
  intros Hj Hj' Hi Hi' E. destruct (lt_eq_lt_dec j j') as [[Hlt|He]|Hlt].
  - pose proof (off_lt _ _ _ Hj _ Hlt). lia.
  - subst. split; auto. lia.
  - pose proof (off_lt _ _ _ Hj' _ Hlt). lia.
Qed.

Definition numbered {A} (l : list A) : list (A * nat) := combine l (seq 0 (length l)).
Lemma combine_snoc {A B} (x : A) (y : B) : forall l m, length l = length m ->
  combine (l ++ [x]) (m ++ [y]) = combine l m ++ [(x, y)].
Proof. induction l as [|a l IH]; intros [|b m] H; cbn in *; try discriminate; auto. f_equal. apply IH. congruence. Qed.
Lemma numbered_snoc {A} (l : list A) x : numbered (l ++ [x]) = numbered l ++ [(x, length l)].
Proof.
  unfold numbered. rewrite app_length. cbn [length]. rewrite Nat.add_1_r, seq_S, combine_snoc; auto.
  rewrite seq_length. reflexivity.
Qed.
Lemma numbered_in {A} (l : list A) x n : In (x, n) (numbered l) <-> nth_error l n = Some x.
Proof.
  unfold numbered. enough (H : forall k, In (x, n) (combine l (seq k (length l))) <-> k <= n /\ nth_error l (n - k) = Some x).
  { rewrite H, Nat.sub_0_r. split; [intros [_ G]; exact G|]. intros G. split; [apply Nat.le_0_l|exact G]. }
  induction l as [|a l IH]; intros k; cbn.
  - split; [intros []|]. intros [_ H]. destruct (n - k); discriminate.
  - rewrite IH. split.
    + intros [E|[H1 H2]]; [injection E as <- <-; rewrite Nat.sub_diag; auto|].
      split; [lia|]. replace (n - k) with (S (n - S k)) by lia. auto.
    + intros [H1 H2]. destruct (Nat.eq_dec n k) as [->|Hne].
      * rewrite Nat.sub_diag in H2. injection H2 as <-. auto.
      * right. split; [lia|]. replace (n - k) with (S (n - S k)) in H2 by lia. auto.
Qed.
Lemma numbered_fresh (l : list index) x : ~ In x l ->
  bm_insert index_eqb Nat.eqb x (length l) (numbered l) = numbered (l ++ [x]).
Proof.
  intros Hn. rewrite numbered_snoc. apply bm_insert_fresh. apply (bm_fresh_true _ _ index_eqb_spec Nat.eqb_spec).
  intros h i Hin. apply numbered_in in Hin. split.
  - intros ->. apply Hn. eapply nth_error_In; eauto.
  - intros ->. rewrite (proj2 (nth_error_None l (length l))) in Hin; [discriminate|lia].
Qed.
Lemma numbered_bij (l : list index) : NoDup l -> bij (numbered l).
Proof.
  intros Hn a n a' n' H1 H2. apply numbered_in in H1, H2. split.
  - intros <-. eapply NoDup_nth_error; eauto; [apply nth_error_Some; congruence|congruence].
  - intros <-. congruence.
Qed.

Record sinv (s : ser) (cs : list contract_inst) (objs : list sobj) : Prop := {
  si_f : finv s (fields_of objs);
  si_con : Forall2 (fun c fc => describes (ci_ty c) fc) cs (sr_contracts s);
  si_obj : sr_objects s = tables 0 objs;
  si_hc : hm_contracts s = numbered (map ci_handle cs);
  si_ho : hm_objects s = numbered (map so_obj objs)
}.
Lemma sinv_new : sinv ser_new [] [].
Proof. constructor; try reflexivity; [constructor; reflexivity|constructor]. Qed.

Lemma fields_snoc objs p : fields_of (objs ++ [p]) = fields_of objs ++ so_fields p.
Proof. unfold fields_of. rewrite flat_map_app. cbn. rewrite app_nil_r. reflexivity. Qed.

Lemma sinv_object s cs objs n o fl :
  sinv s cs objs -> ~ In o (map so_obj objs) -> NoDup (map key (fields_of objs ++ fl)) ->
  sinv (add_object (N.of_nat n) s (o, fl)) cs (objs ++ [(n, o, fl)]).
Proof.
  intros [Hf Hc Ho Hhc Hho] Hn Hk. unfold add_object. cbn [fst snd].
  destruct (add_fields_frame fl s) as [G1 [G2 [G3 [G4 G5]]]].
  pose proof (finv_fold _ _ _ Hf Hk) as [F1 F2 F3].
  assert (HL : length (sr_states s) = length (fields_of objs)) by (rewrite (fi_st _ _ Hf), map_length; auto).
  constructor; cbn [sr_contracts sr_states sr_objects hm_objects hm_contracts hm_cstates hm_ostates].
  - rewrite fields_snoc. constructor; auto.
  - rewrite G1. auto.
  - rewrite G2, Ho, HL, tables_snoc. reflexivity.
  - rewrite G4. auto.
  - rewrite G2, G3, Ho, tables_length, Hho, map_app. cbn.
    replace (length objs) with (length (map so_obj objs)) by apply map_length. apply numbered_fresh; auto.
Qed.

Definition tagged (n : nat) (ps : list (index * list sfield)) : list sobj := map (fun p => (n, fst p, snd p)) ps.
Lemma sinv_objects cs n : forall ps s objs,
  sinv s cs objs -> NoDup (map so_obj objs ++ map fst ps) -> NoDup (map key (fields_of objs ++ flat_map snd ps)) ->
  sinv (fold_left (add_object (N.of_nat n)) ps s) cs (objs ++ tagged n ps).
Proof.
  induction ps as [|[o fl] ps IH]; intros s objs Hs Hn Hk; cbn [fold_left tagged map].
  - rewrite app_nil_r. auto.
  - replace (objs ++ (n, fst (o, fl), snd (o, fl)) :: map (fun p => (n, fst p, snd p)) ps)
      with ((objs ++ [(n, o, fl)]) ++ tagged n ps) by (rewrite <- app_assoc; reflexivity).
    cbn [map fst flat_map snd] in Hn, Hk. apply IH.
    + apply sinv_object; auto.
      * apply NoDup_remove_2 in Hn. intros H. apply Hn. apply in_or_app; auto.
      * rewrite app_assoc, map_app in Hk. exact (nodup_app_l _ _ Hk).
    + rewrite map_app, <- app_assoc. exact Hn.
    + rewrite fields_snoc, <- app_assoc. exact Hk.
Qed.

(** ** Serializing several contracts *)
Lemma slot_f32_stored x : slot_f32 x = if Z.eqb (x mod 2 ^ 31) 0 then 0%Z else x.
Proof.
  unfold slot_f32, f32_eqb, f32_key, fkey, key_eqb. change (8 + 23)%Z with 31%Z.
  pose proof (Z.mod_pos_bound x (2 ^ 31) eq_refl) as Hb.
  set (m := (x mod 2 ^ 31)%Z) in *. set (sg := (Z.eqb ((x / 2 ^ 31) mod 2) 1)). clearbody sg m.
  change (0 mod 2 ^ 31)%Z with 0%Z. change (0 / 2 ^ 31)%Z with 0%Z. cbn [Z.ltb Z.compare Z.mul Z.opp].
  destruct (Z.ltb_spec ((2 ^ 8 - 1) * 2 ^ 23) m) as [Hl|Hl].
  - destruct (Z.eqb_spec m 0); auto. exfalso. assert (0 < (2 ^ 8 - 1) * 2 ^ 23)%Z by reflexivity. lia.
  - change ((2 ^ 8 - 1) * 2 ^ 23 <? 0)%Z with false. change (0 mod 2 =? 1)%Z with false. cbn [negb].
    destruct sg; destruct (Z.eqb_spec m 0) as [->|Hne]; try reflexivity.
    destruct (Z.eqb_spec (- m) 0); [lia|auto].
Qed.
Lemma slot_f64_stored x : slot_f64 x = if Z.eqb (x mod 2 ^ 63) 0 then 0%Z else x.
Proof.
  unfold slot_f64, f64_eqb, f64_key, fkey, key_eqb. change (11 + 52)%Z with 63%Z.
  pose proof (Z.mod_pos_bound x (2 ^ 63) eq_refl) as Hb.
  set (m := (x mod 2 ^ 63)%Z) in *. set (sg := (Z.eqb ((x / 2 ^ 63) mod 2) 1)). clearbody sg m.
  change (0 mod 2 ^ 63)%Z with 0%Z. change (0 / 2 ^ 63)%Z with 0%Z. cbn [Z.ltb Z.compare Z.mul Z.opp].
  destruct (Z.ltb_spec ((2 ^ 11 - 1) * 2 ^ 52) m) as [Hl|Hl].
  - destruct (Z.eqb_spec m 0); auto. exfalso. assert (0 < (2 ^ 11 - 1) * 2 ^ 52)%Z by reflexivity. lia.
  - change ((2 ^ 11 - 1) * 2 ^ 52 <? 0)%Z with false. change (0 mod 2 =? 1)%Z with false. cbn [negb].
    destruct sg; destruct (Z.eqb_spec m 0) as [->|Hne]; try reflexivity.
    destruct (Z.eqb_spec (- m) 0); [lia|auto].
Qed.

Definition cent : Type := contract_inst * list (index * list sfield).
Definition cent_call (e : cent) : contract_inst * list index := (fst e, map fst (snd e)).
Fixpoint numb (k : nat) (L : list cent) : list sobj :=
  match L with [] => [] | e :: r => tagged k (snd e) ++ numb (S k) r end.
Definition good_cent (b : baseline) (e : cent) : Prop :=
  (exists cd, contract_data_of b (ci_handle (fst e)) = Ok cd) /\ no_vec (ci_ty (fst e)) /\
  Forall (read_object b (fst e)) (snd e).

Lemma as_u16_small n : (N.of_nat n < 65536)%N -> as_u16 n = N.of_nat n.
Proof. intros H. unfold as_u16. apply N.mod_small. auto. Qed.
Lemma as_u32_small n : (N.of_nat n < 4294967296)%N -> N.to_nat (as_u32 n) = n.
Proof. intros H. unfold as_u32. rewrite N.mod_small by auto. apply Nat2N.id. Qed.

Lemma sinv_serialize b s cs objs e :
  sinv s cs objs -> good_cent b e -> ~ In (ci_handle (fst e)) (map ci_handle cs) ->
  (N.of_nat (S (length cs)) < 65536)%N ->
  NoDup (map so_obj objs ++ map fst (snd e)) -> NoDup (map key (fields_of objs ++ flat_map snd (snd e))) ->
  exists s', serialize b s (fst e) (map fst (snd e)) = (Ok tt, s') /\
    sinv s' (cs ++ [fst e]) (objs ++ tagged (length cs) (snd e)).
Proof.
  intros Hs [[cd Hcd] [Hnv Hr]] Hh Hlen Hno Hnk. unfold serialize. rewrite Hcd.
  pose proof (ser_contract_cases (ci_ty (fst e))) as Hc.
  destruct (ser_contract (ci_ty (fst e))) as [fc|er|]; [|tauto|tauto]. destruct Hc as [_ Hd].
  destruct Hs as [Hf Hcon Ho Hhc Hho].
  pose proof (Forall2_length _ _ _ Hcon) as HL.
  rewrite app_length. cbn [length]. rewrite as_u16_small by lia.
  replace (N.eqb (N.of_nat (length (sr_contracts s) + 1)) 0) with false by (symmetry; apply N.eqb_neq; lia).
  replace (N.of_nat (length (sr_contracts s) + 1) - 1)%N with (N.of_nat (length cs)) by lia.
  set (s1 := mkSer _ _ _ _ _ _ _).
  assert (Hs1 : sinv s1 (cs ++ [fst e]) objs).
  { constructor; cbn; auto.
    - destruct Hf as [F1 F2 F3]. constructor; auto.
    - apply Forall2_app; auto.
    - rewrite Hhc, map_app. cbn. replace (length (sr_contracts s)) with (length (map ci_handle cs)) by (rewrite map_length; auto).
      apply numbered_fresh; auto. }
  rewrite (ser_objects_ok b (fst e) (N.of_nat (length cs)) (snd e) s1 Hr).
  eexists. split; [reflexivity|]. apply sinv_objects; auto.
Qed.

Lemma fields_tagged n ps : fields_of (tagged n ps) = flat_map snd ps.
Proof. induction ps as [|p ps IH]; auto. cbn. rewrite <- IH. reflexivity. Qed.
Lemma obj_tagged n ps : map so_obj (tagged n ps) = map fst ps.
Proof. unfold tagged. rewrite map_map. reflexivity. Qed.
Lemma fields_app a b : fields_of (a ++ b) = fields_of a ++ fields_of b.
Proof. apply flat_map_app. Qed.

Lemma sinv_serialize_all b : forall L s cs objs,
  sinv s cs objs -> Forall (good_cent b) L ->
  NoDup (map ci_handle (cs ++ map fst L)) -> (N.of_nat (length cs + length L) < 65536)%N ->
  NoDup (map so_obj (objs ++ numb (length cs) L)) -> NoDup (map key (fields_of (objs ++ numb (length cs) L))) ->
  exists s', serialize_all b s (map cent_call L) = (Ok tt, s') /\
    sinv s' (cs ++ map fst L) (objs ++ numb (length cs) L).
Proof.
  induction L as [|e L IH]; intros s cs objs Hs HL Hnh Hlen Hno Hnk; cbn [map serialize_all numb].
  - rewrite !app_nil_r. eauto.
  - inversion HL as [|x y H1 H2]; subst x y. cbn [map] in *. cbn [length] in Hlen. cbn [numb] in Hno, Hnk.
    destruct (sinv_serialize b s cs objs e) as [s1 [E1 Hs1]]; auto.
    + rewrite map_app in Hnh. cbn in Hnh. apply NoDup_remove_2 in Hnh. intros H. apply Hnh. apply in_or_app; auto.
    + lia.
    + rewrite app_assoc, map_app in Hno. apply nodup_app_l in Hno. rewrite map_app, obj_tagged in Hno. auto.
    + rewrite app_assoc, fields_app, map_app in Hnk. apply nodup_app_l in Hnk. rewrite fields_app, fields_tagged in Hnk. auto.
    + unfold cent_call at 1. rewrite E1.
      assert (Hlc : length (cs ++ [fst e]) = S (length cs)) by (rewrite app_length; cbn; lia).
      destruct (IH s1 (cs ++ [fst e]) (objs ++ tagged (length cs) (snd e))) as [s2 [E2 Hs2]]; auto;
        rewrite ?Hlc in *; rewrite <- ?app_assoc; cbn [app]; auto; try lia.
      exists s2. split; auto. rewrite <- !app_assoc in Hs2. exact Hs2.
Qed.

(** ** Finishing *)
Lemma list_set_nth {A} : forall (l : list A) i x j, i < length l ->
  nth_error (list_set l i x) j = if Nat.eqb i j then Some x else nth_error l j.
Proof.
  induction l as [|a l IH]; intros [|i] x [|j] H; cbn in *; try lia; auto. apply IH. lia.
Qed.
Lemma list_set_len {A} : forall (l : list A) i x, length (list_set l i x) = length l.
Proof. induction l as [|a l IH]; intros [|i] x; cbn; auto. Qed.

Lemma rewrite_ok b t look mk : forall pairs states,
  NoDup (map snd pairs) ->
  (forall h i, In (h, i) pairs -> exists v j, state_get b t h = Ok v /\ look v = Some j /\ nth_error states i = Some None) ->
  exists st', rewrite_states b t look mk pairs states = Ok st' /\ length st' = length states /\
    (forall h i, In (h, i) pairs -> exists v j, state_get b t h = Ok v /\ look v = Some j /\ nth_error st' i = Some (Some (mk j))) /\
    (forall i, ~ In i (map snd pairs) -> nth_error st' i = nth_error states i).
Proof.
  induction pairs as [|[h i] pairs IH]; intros states Hn H; cbn [rewrite_states].
  - exists states. split; auto. split; auto. split; auto. intros h i [].
  - destruct (H h i (or_introl eq_refl)) as [v [j [E1 [E2 E3]]]]. rewrite E1, E2, E3.
    cbn in Hn. inversion Hn as [|x y Hx Hy]; subst x y.
    assert (Hlt : i < length states) by (apply nth_error_Some; congruence).
    destruct (IH (list_set states i (Some (mk j))) Hy) as [st' [G1 [G2 [G3 G4]]]].
    { intros h' i' Hin. destruct (H h' i' (or_intror Hin)) as [v' [j' [F1 [F2 F3]]]]. exists v', j'. split; auto. split; auto.
      rewrite list_set_nth by auto. destruct (Nat.eqb_spec i i') as [<-|]; auto.
      exfalso. apply Hx. apply in_map_iff. exists (h', i). auto. }
    exists st'. split; auto. split; [rewrite G2, list_set_len; auto|]. split.
    + intros h' i' [E|Hin]; [|auto]. injection E as <- <-. exists v, j. split; auto. split; auto.
      rewrite G4 by auto. rewrite list_set_nth, Nat.eqb_refl by auto. reflexivity.
    + intros i' Hni. cbn in Hni. rewrite G4 by auto. rewrite list_set_nth by auto.
      destruct (Nat.eqb_spec i i'); auto. tauto.
Qed.
Lemma rewrite_inv b t look mk : forall pairs states st',
  rewrite_states b t look mk pairs states = Ok st' ->
  forall h i, In (h, i) pairs -> exists v j, state_get b t h = Ok v /\ look v = Some j.
Proof.
  induction pairs as [|[h i] pairs IH]; intros states st' H h' i' Hin; cbn in H; [destruct Hin|].
  destruct (state_get b t h) as [v|e|] eqn:E1; try discriminate.
  destruct (look v) as [j|] eqn:E2; try discriminate.
  destruct (nth_error states i) as [[x|]|]; try discriminate.
  destruct Hin as [E|Hin]; [injection E as <- <-; eauto|eauto].
Qed.
Lemma rewrite_no_err b t look mk : forall pairs states e, rewrite_states b t look mk pairs states <> Err e.
Proof.
  induction pairs as [|[h i] pairs IH]; intros states e; cbn; [discriminate|].
  destruct (state_get b t h) as [v|e'|]; try discriminate. destruct (look v); try discriminate.
  destruct (nth_error states i) as [[x|]|]; try discriminate. apply IH.
Qed.

Lemma all_some_map {A} : forall (l : list (option A)),
  (forall k x, nth_error l k = Some x -> x <> None) ->
  exists r, all_some l = Some r /\ length r = length l /\ forall k, nth_error l k = option_map Some (nth_error r k).
Proof.
  induction l as [|[x|] l IH]; intros H; cbn.
  - exists []. repeat split; auto. intros [|k]; auto.
  - destruct IH as [r [E1 [E2 E3]]]. { intros k y Hk. apply (H (S k) y Hk). }
    rewrite E1. exists (x :: r). cbn. split; auto. split; [congruence|]. intros [|k]; cbn; auto.
  - exfalso. exact (H 0 None eq_refl eq_refl).
Qed.

(** What a reference field must refer to. *)
Definition refers (cs : list contract_inst) (objs : list sobj) (v : dynprop) : Prop :=
  match v with
  | PPrim (VObjectHandle o) => In o (map so_obj objs)
  | PPrim (VContractDataHandle h) => In h (map ci_handle cs)
  | _ => True
  end.
Definition read_back (b : baseline) (f : sfield) : Prop :=
  state_get b (sf_t f) (sf_h f) = Ok (sf_v f) /\ prop_type (sf_v f) = sf_t f /\ is_prim_val (sf_v f).

Lemma prim_obj v : prop_type v = tobj -> exists o, v = PPrim (VObjectHandle o).
Proof. destruct v as [p|p]; destruct p; cbn; try discriminate; eauto. Qed.
Lemma prim_con v : prop_type v = tcon -> exists o, v = PPrim (VContractDataHandle o).
Proof. destruct v as [p|p]; destruct p; cbn; try discriminate; eauto. Qed.
Lemma enc_stands obj con v : is_prim_val v -> prop_type v <> tobj -> prop_type v <> tcon ->
  exists fv, enc v = Some fv /\ stands_for obj con fv (stored v).
Proof.
  intros [p ->] H1 H2. unfold enc. destruct p; cbn in *; try congruence; eexists; (split; [reflexivity|]);
    rewrite ?slot_f32_stored, ?slot_f64_stored; constructor.
Qed.
Lemma map_nth {A B} (f : A -> B) l k : nth_error (map f l) k = option_map f (nth_error l k).
Proof. apply nth_error_map. Qed.

Lemma in_nth_left (l : list index) x : NoDup l -> In x l ->
  exists j, bm_left index_eqb x (numbered l) = Some j /\ nth_error l j = Some x.
Proof.
  intros Hn Hin. apply In_nth_error in Hin. destruct Hin as [j Hj]. exists j. split; auto.
  apply (bm_left_iff _ index_eqb_spec); [apply numbered_bij; auto|]. apply numbered_in; auto.
Qed.

Lemma finish_ok b s cs objs ordc ordo :
  sinv s cs objs -> Forall (read_back b) (fields_of objs) ->
  NoDup (map ci_handle cs) -> NoDup (map so_obj objs) ->
  (N.of_nat (length cs) < 65536)%N -> (N.of_nat (length objs) <= 4294967296)%N ->
  Permutation ordc (hm_cstates s) -> Permutation ordo (hm_ostates s) ->
  (forall f, In f (fields_of objs) -> refers cs objs (sf_v f)) ->
  exists states,
    ser_finish b s ordc ordo = Ok (Some (mkFb (Some (sr_contracts s)) (Some states) (Some (tables 0 objs)))) /\
    length states = length (fields_of objs) /\
    forall k f, nth_error (fields_of objs) k = Some f -> exists fv, nth_error states k = Some fv /\
      stands_for (fun j o => nth_error (map so_obj objs) j = Some o)
                 (fun n h => nth_error (map ci_handle cs) n = Some h) fv (stored (sf_v f)).
Proof.
  intros [[F1 F2 F3] Hcon Ho Hhc Hho] Hrb Hnc Hno Hlc Hlo Hpc Hpo Href.
  rewrite Forall_forall in Hrb. set (F := fields_of objs) in *.
  assert (Hin : forall t h i, In (h, i) (pick t 0 F) <-> exists f, nth_error F i = Some f /\ sf_t f = t /\ sf_h f = h).
  { intros t h i. rewrite pick_in, Nat.sub_0_r. split; [tauto|]. intros H; split; [apply Nat.le_0_l|auto]. }
  assert (Hcin : forall h i, In (h, i) ordc <-> exists f, nth_error F i = Some f /\ sf_t f = tcon /\ sf_h f = h).
  { intros h i. rewrite <- Hin, <- F3. split; apply Permutation_in; [auto|apply Permutation_sym; auto]. }
  assert (Hoin : forall h i, In (h, i) ordo <-> exists f, nth_error F i = Some f /\ sf_t f = tobj /\ sf_h f = h).
  { intros h i. rewrite <- Hin, <- F2. split; apply Permutation_in; [auto|apply Permutation_sym; auto]. }
  assert (Hcnd : NoDup (map snd ordc)).
  { eapply Permutation_NoDup; [apply Permutation_sym, Permutation_map, Hpc|]. rewrite F3. apply pick_snd_nodup. }
  assert (Hond : NoDup (map snd ordo)).
  { eapply Permutation_NoDup; [apply Permutation_sym, Permutation_map, Hpo|]. rewrite F2. apply pick_snd_nodup. }
  assert (Hnone : forall i f, nth_error F i = Some f -> sf_t f = tcon \/ sf_t f = tobj -> nth_error (sr_states s) i = Some None).
  { intros i f Hi Ht. rewrite F1, map_nth, Hi. cbn. destruct (Hrb f) as [_ [Hty _]]; [eapply nth_error_In; eauto|].
    destruct Ht as [Ht|Ht]; rewrite Ht in Hty; [apply prim_con in Hty|apply prim_obj in Hty]; destruct Hty as [x ->]; reflexivity. }
  unfold ser_finish.
  destruct (rewrite_ok b tcon (look_contract s) (fun j => FContractDataHandle (as_u16 j)) ordc (sr_states s) Hcnd)
    as [st1 [E1 [L1 [A1 B1]]]].
  { intros h i Hi. apply Hcin in Hi. destruct Hi as [f [Hf [Ht Hh]]]. pose proof (nth_error_In _ _ Hf) as HfF.
    destruct (Hrb f HfF) as [Hg [Hty _]]. rewrite Ht, Hh in Hg. rewrite Ht in Hty. destruct (prim_con _ Hty) as [c Ev].
    specialize (Href f HfF). rewrite Ev in Href. cbn in Href. destruct (in_nth_left _ _ Hnc Href) as [j [Hj1 Hj2]].
    exists (sf_v f), j. split; auto. split; [rewrite Ev; cbn; rewrite Hhc; auto|]. eapply Hnone; eauto. }
  rewrite E1.
  destruct (rewrite_ok b tobj (look_object s) (fun j => FObjectHandle (as_u32 j)) ordo st1 Hond)
    as [st2 [E2 [L2 [A2 B2]]]].
  { intros h i Hi. apply Hoin in Hi. destruct Hi as [f [Hf [Ht Hh]]]. pose proof (nth_error_In _ _ Hf) as HfF.
    destruct (Hrb f HfF) as [Hg [Hty _]]. rewrite Ht, Hh in Hg. rewrite Ht in Hty. destruct (prim_obj _ Hty) as [c Ev].
    specialize (Href f HfF). rewrite Ev in Href. cbn in Href. destruct (in_nth_left _ _ Hno Href) as [j [Hj1 Hj2]].
    exists (sf_v f), j. split; auto. split; [rewrite Ev; cbn; rewrite Hho; auto|].
    rewrite B1; [eapply Hnone; eauto|]. intros Hx. apply in_map_iff in Hx. destruct Hx as [[h' i'] [Ei Hx]]. cbn in Ei. subst i'.
    apply Hcin in Hx. destruct Hx as [g [Hg' [Ht' _]]]. congruence. }
  rewrite E2.
  assert (Hval : forall k f, nth_error F k = Some f -> exists fv, nth_error st2 k = Some (Some fv) /\
      stands_for (fun j o => nth_error (map so_obj objs) j = Some o)
                 (fun n h => nth_error (map ci_handle cs) n = Some h) fv (stored (sf_v f))).
  { intros k f Hf. pose proof (nth_error_In _ _ Hf) as HfF. destruct (Hrb f HfF) as [Hg [Hty Hpv]].
    assert (Hdec : sf_t f = tcon \/ sf_t f = tobj \/ (sf_t f <> tcon /\ sf_t f <> tobj)).
    { destruct (ptype_eqb_spec (sf_t f) tcon); auto. destruct (ptype_eqb_spec (sf_t f) tobj); auto. }
    destruct Hdec as [Ht|[Ht|[Hn1 Hn2]]].
    - destruct (A1 (sf_h f) k) as [v [j [G1 [G2 G3]]]]. { apply Hcin. eauto. }
      rewrite <- Ht, Hg in G1. injection G1 as <-. rewrite Ht in Hty. destruct (prim_con _ Hty) as [c Ev].
      exists (FContractDataHandle (as_u16 j)). split.
      + rewrite B2; auto. intros Hx. apply in_map_iff in Hx. destruct Hx as [[h' i'] [Ei Hx]]. cbn in Ei. subst i'.
        apply Hoin in Hx. destruct Hx as [g [Hg' [Ht' _]]]. congruence.
      + rewrite Ev in G2 |- *. cbn in G2 |- *. rewrite Hhc in G2. apply (bm_left_in _ index_eqb_spec) in G2. apply numbered_in in G2.
        constructor. rewrite as_u16_small, Nat2N.id; auto.
        assert (j < length (map ci_handle cs)) by (apply nth_error_Some; congruence). rewrite map_length in H. lia.
    - destruct (A2 (sf_h f) k) as [v [j [G1 [G2 G3]]]]. { apply Hoin. eauto. }
      rewrite <- Ht, Hg in G1. injection G1 as <-. rewrite Ht in Hty. destruct (prim_obj _ Hty) as [c Ev].
      exists (FObjectHandle (as_u32 j)). split; auto.
      rewrite Ev in G2 |- *. cbn in G2 |- *. rewrite Hho in G2. apply (bm_left_in _ index_eqb_spec) in G2. apply numbered_in in G2.
      constructor. rewrite as_u32_small; auto.
      assert (j < length (map so_obj objs)) by (apply nth_error_Some; congruence). rewrite map_length in H. lia.
    - destruct (enc_stands (fun j o => nth_error (map so_obj objs) j = Some o)
                 (fun n h => nth_error (map ci_handle cs) n = Some h) (sf_v f) Hpv) as [fv [G1 G2]]; try congruence.
      exists fv. split; auto. rewrite B2, B1, F1, map_nth, Hf; cbn; [congruence| |]; intros Hx; apply in_map_iff in Hx;
        destruct Hx as [[h' i'] [Ei Hx]]; cbn in Ei; subst i'; [apply Hcin in Hx|apply Hoin in Hx];
        destruct Hx as [g [Hg' [Ht' _]]]; congruence. }
  assert (HlF : length st2 = length F) by (rewrite L2, L1, F1, map_length; auto).
  destruct (all_some_map st2) as [states [S1 [S2 S3]]].
  { intros k x Hk. assert (Hk' : k < length F) by (rewrite <- HlF; apply nth_error_Some; congruence).
    destruct (nth_error F k) as [f|] eqn:Ef; [|apply nth_error_None in Ef; lia].
    destruct (Hval _ _ Ef) as [fv [G _]]. congruence. }
  rewrite S1. exists states. split; [rewrite Ho; reflexivity|]. split; [congruence|].
  intros k f Hf. destruct (Hval _ _ Hf) as [fv [G1 G2]]. exists fv. split; auto.
  rewrite S3 in G1. destruct (nth_error states k); cbn in G1; congruence.
Qed.

Lemma finish_inv b s cs objs ordc ordo r :
  sinv s cs objs -> Forall (read_back b) (fields_of objs) ->
  Permutation ordc (hm_cstates s) -> Permutation ordo (hm_ostates s) ->
  ser_finish b s ordc ordo = Ok r ->
  forall f, In f (fields_of objs) -> refers cs objs (sf_v f).
Proof.
  intros [[F1 F2 F3] Hcon Ho Hhc Hho] Hrb Hpc Hpo E f Hf. rewrite Forall_forall in Hrb.
  destruct (Hrb f Hf) as [Hg [Hty Hpv]]. unfold ser_finish in E.
  destruct (rewrite_states b tcon _ _ ordc _) as [st1|e|] eqn:E1; try discriminate.
  destruct (rewrite_states b tobj _ _ ordo _) as [st2|e|] eqn:E2; try discriminate.
  apply In_nth_error in Hf. destruct Hf as [k Hk].
  destruct (sf_v f) as [p|p] eqn:Ev; [|exact I]. destruct p; try exact I; cbn in *.
  - assert (Hin : In (sf_h f, k) ordo).
    { eapply Permutation_in; [apply Permutation_sym, Hpo|]. rewrite F2. apply pick_in. rewrite Nat.sub_0_r. split; [lia|eauto]. }
    destruct (rewrite_inv _ _ _ _ _ _ _ E2 _ _ Hin) as [v [j [G1 G2]]]. rewrite <- Hty in Hg. rewrite Hg in G1. injection G1 as <-.
    cbn in G2. rewrite Hho in G2. apply (bm_left_in _ index_eqb_spec) in G2. apply numbered_in in G2. eapply nth_error_In; eauto.
  - assert (Hin : In (sf_h f, k) ordc).
    { eapply Permutation_in; [apply Permutation_sym, Hpc|]. rewrite F3. apply pick_in. rewrite Nat.sub_0_r. split; [lia|eauto]. }
    destruct (rewrite_inv _ _ _ _ _ _ _ E1 _ _ Hin) as [v [j [G1 G2]]]. rewrite <- Hty in Hg. rewrite Hg in G1. injection G1 as <-.
    cbn in G2. rewrite Hhc in G2. apply (bm_left_in _ index_eqb_spec) in G2. apply numbered_in in G2. eapply nth_error_In; eauto.
Qed.
Lemma finish_no_err b s ordc ordo e : ser_finish b s ordc ordo <> Err e.
Proof.
  unfold ser_finish. destruct (rewrite_states b tcon _ _ ordc _) as [st1|e1|]; try discriminate.
  destruct (rewrite_states b tobj _ _ ordo _); discriminate.
Qed.

(** ** Disciplined baselines *)
Lemma forall2_nth {A B} (R : A -> B -> Prop) l m : Forall2 R l m ->
  forall i a, nth_error l i = Some a -> exists b, nth_error m i = Some b /\ R a b.
Proof.
  induction 1 as [|a b l m H1 H2 IH]; intros [|i] x Hx; cbn in *; try discriminate; [|eauto].
  injection Hx as <-. eauto.
Qed.
Lemma forall2_nth_r {A B} (R : A -> B -> Prop) l m : Forall2 R l m ->
  forall i b, nth_error m i = Some b -> exists a, nth_error l i = Some a /\ R a b.
Proof.
  induction 1 as [|a b l m H1 H2 IH]; intros [|i] x Hx; cbn in *; try discriminate; [|eauto].
  injection Hx as <-. eauto.
Qed.

(** One entry of the listing as the client sees it. *)
Definition sel_ok (b : baseline) (s : rstate) (p : contract_inst * list index) : Prop :=
  rs_con s (ci_handle (fst p)) = Some (ci_ty (fst p)) /\
  (exists cd, con_at b (ci_handle (fst p)) = Some cd /\ incl (snd p) (cd_objects cd) /\ NoDup (snd p)) /\
  (forall o, In o (snd p) -> obj_at b o <> None) /\ no_vec (ci_ty (fst p)).

Section Disc.
Variables (b : baseline) (s : rstate) (fs fc : index -> list index).
Hypothesis Hr : rrel b s fs fc.

Lemma disc_typed : typed_states b.
Proof. intros t h v H. apply state_get_ok in H. exact (bi_st_ty _ (rr_inv _ _ _ _ Hr) _ _ _ H). Qed.

Lemma sel_live p o : sel_ok b s p -> In o (snd p) ->
  exists ro, live_obj s o = Some ro /\ ro_contract ro = ci_handle (fst p) /\
    exists ob, obj_at b o = Some ob /\ o_contract ob = ci_handle (fst p).
Proof.
  intros [Hc [[cd [Hcd [Hp _]]] [Hl _]]] Hin. specialize (Hl o Hin).
  destruct (live_obj s o) as [ro|] eqn:El; [|exfalso; apply Hl; exact (rr_dead _ _ _ _ Hr _ El)].
  exists ro. split; auto. destruct (rr_live _ _ _ _ Hr _ _ El) as [Hg _].
  destruct (bi_con_obj _ (rr_inv _ _ _ _ Hr) _ _ o Hcd) as [Hd|[ob [Ho Hoc]]].
  - auto.
  - exfalso. apply Hl. exact (proj1 Hd).
  - rewrite Hg in Ho. injection Ho as <-. cbn in Hoc. split; auto. eexists. split; [exact Hg|auto].
Qed.

Lemma reads_rec C h o ro i t f :
  rs_con s h = Some C -> live_obj s o = Some ro -> ro_contract ro = h -> nth_error (ct_states C) i = Some t ->
  reads b o f (mkPid t i h) ->
  nth_error (fs o) i = Some (sf_h f) /\ nth_error (ro_vals ro) i = Some (sf_v f) /\ prop_type (sf_v f) = t.
Proof.
  intros Hc Hl Hrc Ht [R1 [R2 [R3 [R4 R5]]]]. cbn [pid_type pid_idx] in *.
  destruct (rec_bind _ _ _ _ _ _ _ _ _ _ Hr Hc Hl Hrc Ht) as [sh [v [E1 [E2 [E3 [E4 [E5 _]]]]]]].
  rewrite E1 in R4. injection R4 as ->. unfold st_at in E5. rewrite R5 in E5. injection E5 as <-. auto.
Qed.

Lemma all_resolve C h o ro : rs_con s h = Some C -> live_obj s o = Some ro -> ro_contract ro = h ->
  forall id, In id (state_ids C h) -> resolves b o id.
Proof.
  intros Hc Hl Hrc id Hin. apply In_nth_error in Hin. destruct Hin as [i Hi]. rewrite state_ids_nth in Hi.
  destruct (nth_error (ct_states C) i) as [t|] eqn:Et; [|discriminate]. cbn in Hi. injection Hi as <-.
  destruct (rec_bind _ _ _ _ _ _ _ _ _ _ Hr Hc Hl Hrc Et) as [sh [v [E1 [E2 [E3 [E4 [E5 _]]]]]]].
  exists (mkSf o i t sh v). split; [reflexivity|]. split; [reflexivity|]. split; [reflexivity|]. split; [exact E1|].
  cbn. unfold st_at in E5. destruct (state_get b t sh); congruence.
Qed.

Lemma resolve_list o : forall ids, (forall id, In id ids -> resolves b o id) -> exists fl, Forall2 (reads b o) fl ids.
Proof.
  induction ids as [|id ids IH]; intros H; [exists []; constructor|].
  destruct IH as [fl Hf]; [intros; apply H; right; auto|]. destruct (H id (or_introl eq_refl)) as [f Hf'].
  exists (f :: fl). constructor; auto.
Qed.
Lemma reads_prim o ids fl : prim_ids ids -> Forall2 (reads b o) fl ids -> Forall (fun f => is_prim_val (sf_v f)) fl.
Proof.
  intros Hp H. induction H as [|f id fl ids [R1 [R2 [R3 [R4 R5]]]] H2 IH]; constructor.
  - destruct (Hp id (or_introl eq_refl)) as [p Ep]. exact (prim_typed _ _ _ _ _ disc_typed Ep R5).
  - apply IH. intros x Hx. apply Hp. right; auto.
Qed.

Lemma build_objects p : sel_ok b s p ->
  forall ord, incl ord (snd p) -> exists ps, map fst ps = ord /\ Forall (read_object b (fst p)) ps.
Proof.
  intros Hp. induction ord as [|o ord IH]; intros Hi.
  - exists []. split; [reflexivity|constructor].
  - destruct IH as [ps [E1 E2]]; [intros x Hx; apply Hi; right; auto|].
    destruct (sel_live p o Hp) as [ro [Hl [Hrc _]]]; [apply Hi; left; auto|]. destruct Hp as [Hc [_ [_ Hnv]]].
    destruct (resolve_list o _ (all_resolve _ _ _ _ Hc Hl Hrc)) as [fl Hfl].
    exists ((o, fl) :: ps). cbn. split; [congruence|]. constructor; auto. split; auto. cbn.
    eapply reads_prim; eauto. apply no_vec_ids; auto.
Qed.
Lemma build_cents : forall l, Forall (sel_ok b s) l ->
  exists L, map cent_call L = l /\ Forall (good_cent b) L.
Proof.
  induction 1 as [|p l Hp Hl [L [E1 E2]]].
  - exists []. split; [reflexivity|constructor].
  - destruct (build_objects p Hp (snd p) (incl_refl _)) as [ps [F1 F2]].
    exists ((fst p, ps) :: L). split.
    + cbn. rewrite E1. f_equal. unfold cent_call. cbn. rewrite F1. destruct p; reflexivity.
    + constructor; auto. destruct Hp as [_ [[cd [Hcd _]] [_ Hnv]]]. split; [|auto].
      exists cd. cbn. unfold contract_data_of. unfold con_at in Hcd. rewrite Hcd. reflexivity.
Qed.

(** The listing and the objects recorded by the serializer. *)
Definition pairs_with (p : nat * contract_inst * index) (q : sobj) : Prop :=
  fst (fst p) = fst (fst q) /\ snd p = so_obj q /\ read_object b (snd (fst p)) (so_obj q, so_fields q).
Lemma listing_numb : forall L k, Forall (good_cent b) L ->
  Forall2 pairs_with (listing k (map cent_call L)) (numb k L).
Proof.
  induction L as [|e L IH]; intros k H; cbn [map listing numb cent_call].
  - constructor.
  - inversion H as [|x y [_ [_ H1]] H2]; subst x y. unfold cent_call at 1. apply Forall2_app; [|apply IH; auto].
    unfold tagged. clear H2 IH H. destruct e as [c ps]. cbn in *. induction H1 as [|p ps Hp Hps IHp]; cbn; constructor; auto.
    split; [reflexivity|]. split; [reflexivity|]. destruct p; exact Hp.
Qed.
Lemma listing_nth : forall l k j n c o, nth_error (listing k l) j = Some (n, c, o) ->
  k <= n /\ exists ord, nth_error l (n - k) = Some (c, ord) /\ In o ord.
Proof.
  induction l as [|[c' ord'] l IH]; intros k j n c o Hj; cbn [listing] in Hj; [destruct j; discriminate|].
  destruct (lt_dec j (length ord')) as [Hl|Hl].
  - rewrite nth_error_app1 in Hj by (rewrite map_length; auto). rewrite nth_error_map in Hj.
    destruct (nth_error ord' j) as [o'|] eqn:Eo; [|discriminate]. cbn in Hj. injection Hj as <- <- <-.
    split; auto. rewrite Nat.sub_diag. exists ord'. split; auto. eapply nth_error_In; eauto.
  - rewrite nth_error_app2 in Hj by (rewrite map_length; lia). destruct (IH _ _ _ _ _ Hj) as [H1 [ord [H2 H3]]].
    split; [lia|]. exists ord. split; auto. replace (n - k) with (S (n - S k)) by lia. auto.
Qed.
Lemma listing_in : forall l k n c ord o, nth_error l n = Some (c, ord) -> In o ord -> In (k + n, c, o) (listing k l).
Proof.
  induction l as [|[c' ord'] l IH]; intros k [|n] c ord o Hn Ho; cbn in *; try discriminate; apply in_or_app.
  - injection Hn as <- <-. left. rewrite Nat.add_0_r. apply in_map_iff. eauto.
  - right. replace (k + S n) with (S k + n) by lia. eauto.
Qed.

Lemma listing_nodup : forall l k, Forall (sel_ok b s) l -> NoDup (map (fun p => ci_handle (fst p)) l) ->
  NoDup (map snd (listing k l)).
Proof.
  induction l as [|[c ord] l IH]; intros k Hl Hn; cbn [listing map]; [constructor|].
  inversion Hl as [|x y H1 H2]; subst x y. cbn in Hn. inversion Hn as [|x y H3 H4]; subst x y.
  rewrite map_app, map_map. cbn [snd]. rewrite map_id.
  assert (Hord : NoDup ord).
  { destruct H1 as [_ [[cd [_ [_ Hp]]] _]]. exact Hp. }
  specialize (IH (S k) H2 H4).
  assert (Hdis : forall o, In o ord -> ~ In o (map snd (listing (S k) l))).
  { intros o Ho Hin. apply in_map_iff in Hin. destruct Hin as [[[n c'] o'] [Eo Hin]]. cbn in Eo. subst o'.
    apply In_nth_error in Hin. destruct Hin as [j Hj]. apply listing_nth in Hj. destruct Hj as [_ [ord' [Hj Ho']]].
    apply nth_error_In in Hj. pose proof Hj as Hj'. rewrite Forall_forall in H2. specialize (H2 _ Hj).
    destruct (sel_live _ _ H1 Ho) as [_ [_ [_ [ob [G1 G2]]]]]. destruct (sel_live _ _ H2 Ho') as [_ [_ [_ [ob' [G3 G4]]]]].
    cbn in G2, G4. apply H3. apply in_map_iff. exists (c', ord'). cbn. split; auto. congruence. }
  clear H1 Hl. induction Hord as [|o ord Ho Hord IHo]; cbn; auto. constructor.
  - rewrite in_app_iff. intros [H|H]; auto. apply (Hdis o); auto. left; auto.
  - apply IHo. intros x Hx. apply Hdis. right; auto.
Qed.
End Disc.
