(** Exactly when the objects of a contract are accepted. *)
From Verif Require Export DeserTotal.
Open Scope nat_scope.

Definition is_ref (fb : fb_baseline) (n : nat) : bool :=
  match buf_state fb n with Some (FObjectHandle _) => true | _ => false end.
(** The reference states of buffer object [j]. *)
Definition ref_states (fb : fb_baseline) (j : nat) : list nat := filter (is_ref fb) (buf_indices fb j).

(** What is required of object [j] alone. *)
Definition well_formed (fb : fb_baseline) (cs : list contract_inst) (c : contract_inst) (j : nat) : Prop :=
  ct_chans (ci_ty c) = [] /\
  length (buf_indices fb j) = length (ct_states (ci_ty c)) /\
  (forall o, buf_object fb j = Some o -> fo_states o <> None -> fb_states fb <> None) /\
  (forall i t, nth_error (ct_states (ci_ty c)) i = Some t -> exists fv,
     buf_field fb j i = Some fv /\ tag_eq_ptype (p_type fv) t = true /\ fv <> FFbString None) /\
  (forall i n, buf_field fb j i = Some (FContractDataHandle n) ->
     exists c', In c' cs /\ find_serialized_contract fb (ci_ty c') = Ok (N.to_nat n)).

Lemma is_ref_iff fb n : is_ref fb n = true <-> exists oi, buf_state fb n = Some (FObjectHandle oi).
Proof.
  unfold is_ref. destruct (buf_state fb n) as [[]|]; split; try discriminate; try (intros [? ?]; discriminate); eauto.
Qed.

Lemma nodup_app_iff {A} (l m : list A) :
  NoDup (l ++ m) <-> NoDup l /\ NoDup m /\ forall x, In x l -> ~ In x m.
Proof.
  induction l as [|a l IH]; cbn.
  - split; [intros H; split; [constructor|split; auto]|tauto].
  - rewrite !NoDup_cons_iff, IH, in_app_iff. split.
    + intros [H1 [H2 [H3 H4]]]. split; [tauto|]. split; auto. intros x [<-|Hx]; [tauto|auto].
    + intros [[H1 H2] [H3 H4]]. split; [|split; [|split]]; auto. intros [H|H]; [auto|]. apply (H4 a); auto.
Qed.
Lemma nodup_snoc {A} (l : list A) x : NoDup l -> ~ In x l -> NoDup (l ++ [x]).
Proof.
  intros H1 H2. apply nodup_app_iff. split; auto. split; [repeat constructor; intros []|].
  intros y Hy [<-|[]]. auto.
Qed.

Lemma build_props_ok_inv fb d : d_fb d = fb -> forall l refs ps ns refs',
  build_props d refs l = (Ok (ps, ns), refs') ->
  map fst refs' = map fst refs ++ filter (is_ref fb) (map (fun p => N.to_nat (snd p)) l) /\
  (NoDup (map fst refs) -> NoDup (map fst refs')) /\
  (forall id n, In (id, n) l -> buf_state fb (N.to_nat n) <> Some (FFbString None)) /\
  (forall id n ci, In (id, n) l -> buf_state fb (N.to_nat n) = Some (FContractDataHandle ci) ->
     exists h, In (N.to_nat ci, h) (d_contracts d)).
Proof.
  intros Hfb. induction l as [|[id n] l IH]; intros refs ps ns refs'; cbn -[existsb].
  - intros E; injection E as <- <- <-. rewrite app_nil_r. split; auto. split; auto. split; [intros ? ? []|intros ? ? ? []].
  - rewrite Hfb. destruct (fb_states fb) as [states|] eqn:Efs; [|discriminate].
    destruct (nth_error states (N.to_nat n)) as [fv|] eqn:Efv; [|discriminate].
    assert (Hst : buf_state fb (N.to_nat n) = Some fv) by (unfold buf_state; rewrite Efs; auto).
    destruct (decode (d_contracts d) fv) as [[p|oi]|e|] eqn:Ed; try discriminate.
    + destruct (build_props d refs l) as [[[ps' ns']|e|] r'] eqn:Eb; try discriminate.
      intros E; injection E as _ _ <-. destruct (IH _ _ _ _ Eb) as [H1 [H2 [H3 H4]]].
      assert (Hnr : is_ref fb (N.to_nat n) = false).
      { unfold is_ref. rewrite Hst. destruct fv; auto. discriminate. }
      rewrite Hnr. split; auto. split; auto. split.
      * intros id' n' [E|Hin]; [|eauto]. injection E as _ <-. rewrite Hst. intros E; injection E as ->. discriminate.
      * intros id' n' ci [E|Hin]; [|eauto]. injection E as _ <-. rewrite Hst. intros E; injection E as ->.
        cbn in Ed. destruct (bm_left Nat.eqb (N.to_nat ci) (d_contracts d)) as [h|] eqn:Eh; [|discriminate].
        exists h. apply (bm_left_in Nat.eqb Nat.eqb_spec). auto.
    + destruct (decode_ref _ _ _ Ed) as [jj [-> ->]].
      destruct (existsb (fun p => Nat.eqb (fst p) (N.to_nat n)) refs) eqn:Eex; [discriminate|].
      destruct (negb (ptype_eqb (pid_type id) (TPrim TObjectHandle))); [discriminate|].
      destruct (build_props d (refs ++ [(N.to_nat n, N.to_nat jj)]) l) as [[[ps' ns']|e|] r'] eqn:Eb; try discriminate.
      intros E; injection E as _ _ <-. destruct (IH _ _ _ _ Eb) as [H1 [H2 [H3 H4]]].
      assert (Hnr : is_ref fb (N.to_nat n) = true) by (apply is_ref_iff; eauto).
      rewrite Hnr. split; [rewrite H1, map_app, <- app_assoc; reflexivity|]. split.
      { intros Hnd. apply H2. rewrite map_app. apply nodup_snoc; auto.
        cbn. intros Hin. apply refs_in_keys in Hin. congruence. }
      split.
      * intros id' n' [E|Hin]; [|eauto]. injection E as _ <-. congruence.
      * intros id' n' ci [E|Hin]; [|eauto]. injection E as _ <-. congruence.
Qed.

Lemma refs_of_object fb c j o :
  buf_object fb j = Some o -> length (obj_idxs o) = length (ct_states (ci_ty c)) ->
  filter (is_ref fb) (map (fun p => N.to_nat (snd p)) (combine (state_ids (ci_ty c) (ci_handle c)) (obj_idxs o)))
  = ref_states fb j.
Proof.
  intros Ho Hl. unfold ref_states. rewrite (obj_idxs_buf _ _ _ Ho). f_equal.
  rewrite <- (map_map (@snd prop_id N) N.to_nat). f_equal.
  assert (Hll : length (state_ids (ci_ty c) (ci_handle c)) = length (obj_idxs o)).
  { unfold state_ids. rewrite iter_collect_ids, ids_from_length. lia. }
  revert Hll. generalize (state_ids (ci_ty c) (ci_handle c)). generalize (obj_idxs o).
  induction l as [|a l IH]; intros [|b m]; cbn; try discriminate; auto. intros E. f_equal. auto.
Qed.

(** One object, accepted. *)
Lemma deserialize_obj_ok_inv fb k cs d s fs fc c j o d' :
  dinv fb k cs d s fs fc -> In c cs -> validate_obj (ds_b d) c j = Ok o ->
  deserialize_obj d c j o = (Ok tt, d') ->
  well_formed fb cs c j /\ map fst (ds_refs d') = map fst (ds_refs d) ++ ref_states fb j /\
  (NoDup (map fst (ds_refs d)) -> NoDup (map fst (ds_refs d'))).
Proof.
  intros Hd Hc Hv. pose proof (di_b _ _ _ _ _ _ _ Hd) as Hb.
  destruct (validate_obj_ok _ _ _ _ _ _ _ _ _ _ Hb Hc Hv) as [Hbo [[cidx [Hfind Hbc]] [Hlen Hty]]].
  pose proof (obj_idxs_buf _ _ _ Hbo) as Hidx.
  assert (Hlen' : length (obj_idxs o) = length (ct_states (ci_ty c))).
  { rewrite Hidx, map_length in Hlen. auto. }
  unfold deserialize_obj. fold (obj_idxs o).
  destruct (match fo_states o with Some l => _ | None => _ end); [discriminate|].
  destruct (build_props (ds_b d) (ds_refs d) _) as [[[ps ns]|e|] refs] eqn:Eb; try discriminate.
  destruct (object_create (d_base (ds_b d)) c ps []) as [ro' b1] eqn:Ec.
  assert (Ec' : object_create (d_base (ds_b d)) (mkCinst (ci_ty c) (ci_handle c)) ps [] = (ro', b1)).
  { destruct c; auto. }
  destruct (rec_create _ _ _ _ _ _ _ _ _ _ (db_rel _ _ _ _ _ _ _ Hb) (rs_con_of _ _ _ _ _ _ _ _ Hb Hc) (Forall_nil _) Ec')
    as [[Hpt [Hct [oh [-> _]]]]|[_ [_ [e ->]]]]; [|discriminate].
  destruct (track_nulls b1 oh ns (ds_states d)) as [[u|e|] st]; try discriminate.
  destruct (bm_fresh index_eqb Nat.eqb oh j (ds_objects d)); [|discriminate].
  intros E; injection E as <-. cbn [ds_refs].
  destruct (build_props_ok_inv fb (ds_b d) (db_fb _ _ _ _ _ _ _ Hb) _ _ _ _ _ Eb) as [H1 [H2 [H3 H4]]].
  rewrite (refs_of_object _ _ _ _ Hbo Hlen') in H1. split; [|auto].
  assert (Hin : forall i n, nth_error (buf_indices fb j) i = Some n -> exists id n0,
    In (id, n0) (combine (state_ids (ci_ty c) (ci_handle c)) (obj_idxs o)) /\ n = N.to_nat n0).
  { intros i n Hn. rewrite Hidx, nth_error_map in Hn. destruct (nth_error (obj_idxs o) i) as [n0|] eqn:En; [|discriminate].
    injection Hn as <-. pose proof (nth_error_lt _ _ _ En) as Hlt. rewrite Hlen' in Hlt.
    destruct (nth_error (ct_states (ci_ty c)) i) as [t|] eqn:Et. 2:{ apply nth_error_None in Et. lia. }
    exists (mkPid t i (ci_handle c)), n0. split; auto. apply nth_error_In with i.
    rewrite nth_error_combine, state_ids_nth, Et, En. reflexivity. }
  split; [auto|]. split; [auto|]. split; [|split].
  - intros o' Ho' Hns Hno. assert (o' = o) by congruence. subst o'.
    unfold validate_obj in Hv. rewrite (db_fb _ _ _ _ _ _ _ Hb) in Hv. unfold buf_object in Hbo.
    destruct (fb_objects fb) as [objs|]; [|discriminate]. rewrite Hbo in Hv.
    destruct (bm_right index_eqb (ci_handle c) (d_contracts (ds_b d))); [|discriminate].
    destruct (fo_contract o); [|discriminate]. destruct (negb _); [discriminate|].
    destruct (negb _); [discriminate|]. destruct (fo_states o) as [l|]; [|congruence].
    rewrite Hno in Hv. discriminate.
  - intros i t Ht. destruct (Hty _ _ Ht) as [n [fv [G1 [G2 G3]]]]. exists fv.
    split; [unfold buf_field; rewrite G1; auto|]. split; auto. intros ->.
    destruct (Hin _ _ G1) as [id [n0 [K1 ->]]]. apply (H3 _ _ K1). auto.
  - intros i ci Hf. unfold buf_field in Hf. destruct (nth_error (buf_indices fb j) i) as [n|] eqn:En; [|discriminate].
    destruct (Hin _ _ En) as [id [n0 [K1 ->]]]. destruct (H4 _ _ _ K1 Hf) as [h Hh].
    apply (db_reg _ _ _ _ _ _ _ Hb) in Hh. destruct Hh as [c' [A1 [A2 A3]]]. eauto.
Qed.

Lemma nodup_filter_pos {A} (p : A -> bool) : forall l,
  NoDup (filter p l) <->
  forall i i' x, nth_error l i = Some x -> nth_error l i' = Some x -> p x = true -> i = i'.
Proof.
  induction l as [|a l IH]; cbn.
  - split; [intros _ [|i]; discriminate|constructor].
  - assert (Htail : (forall i i' x, nth_error (a :: l) i = Some x -> nth_error (a :: l) i' = Some x -> p x = true -> i = i') <->
      (p a = true -> ~ In a l) /\ forall i i' x, nth_error l i = Some x -> nth_error l i' = Some x -> p x = true -> i = i').
    { split.
      - intros H. split.
        + intros Hp Hin. apply In_nth_error in Hin. destruct Hin as [i Hi]. specialize (H 0 (S i) a eq_refl Hi Hp). discriminate.
        + intros i i' x H1 H2 H3. specialize (H (S i) (S i') x H1 H2 H3). lia.
      - intros [H1 H2] [|i] [|i'] x; cbn; auto.
        + intros E1 E2 Hp. injection E1 as <-. exfalso. apply (H1 Hp). eapply nth_error_In; eauto.
        + intros E1 E2 Hp. injection E2 as <-. exfalso. apply (H1 Hp). eapply nth_error_In; eauto.
        + intros E1 E2 Hp. f_equal. eauto. }
    rewrite Htail, <- IH. destruct (p a) eqn:Ep.
    + rewrite NoDup_cons_iff, filter_In. split; intros [H1 H2]; (split; [|exact H2]).
      * intros _ Hin. apply H1. auto.
      * intros [Hin _]. exact (H1 eq_refl Hin).
    + split; [intros H; split; [discriminate|auto]|tauto].
Qed.

(** One object: exactly when it is accepted, among objects not made before. *)
Lemma one_object_exact fb k cs d s fs fc c idx j :
  dinv fb k cs d s fs fc -> In c cs -> find_serialized_contract fb (ci_ty c) = Ok idx ->
  buf_contract fb j = Some idx -> (forall oh, ~ In (oh, j) (ds_objects d)) ->
  well_formed fb cs c j -> NoDup (ref_states fb j) ->
  (forall n, In n (ref_states fb j) -> ~ In n (map fst (ds_refs d))) ->
  exists o d', validate_obj (ds_b d) c j = Ok o /\ deserialize_obj d c j o = (Ok tt, d').
Proof.
  intros Hd Hc Hf Hj Hnm [W1 [W2 [W3 [W4 W5]]]] Hnd Hdis.
  pose proof (di_b _ _ _ _ _ _ _ Hd) as Hb.
  assert (Hfld : forall n, In n (buf_indices fb j) -> exists i t fv,
     nth_error (buf_indices fb j) i = Some n /\ nth_error (ct_states (ci_ty c)) i = Some t /\
     buf_state fb n = Some fv /\ tag_eq_ptype (p_type fv) t = true /\ fv <> FFbString None).
  { intros n Hin. apply In_nth_error in Hin. destruct Hin as [i Hi].
    pose proof (nth_error_lt _ _ _ Hi) as Hlt. rewrite W2 in Hlt.
    destruct (nth_error (ct_states (ci_ty c)) i) as [t|] eqn:Et. 2:{ apply nth_error_None in Et. lia. }
    destruct (W4 _ _ Et) as [fv [F1 [F2 F3]]]. unfold buf_field in F1. rewrite Hi in F1. exists i, t, fv. auto. }
  pose proof (validate_obj_cases _ _ _ _ _ _ _ _ _ _ Hb Hc Hf Hj) as Hv.
  destruct (validate_obj (ds_b d) c j) as [o|e|] eqn:Ev.
  2:{ exfalso. destruct Hv as [Hv|[Hv|[i [n [t [fv [H1 [H2 [H3 H4]]]]]]]]]; auto.
      - (* no table of states *)
        destruct (buf_object fb j) as [o|] eqn:Eo; [|unfold buf_contract in Hj; rewrite Eo in Hj; discriminate].
        assert (Hns : fo_states o = None).
        { destruct (fo_states o) as [l|] eqn:Es; auto. exfalso. apply (W3 o); auto. congruence. }
        revert Ev. unfold validate_obj. rewrite (db_fb _ _ _ _ _ _ _ Hb).
        unfold buf_contract in Hj. rewrite Eo in Hj.
        unfold buf_indices in W2. rewrite Eo, Hns in W2. cbn in W2.
        unfold buf_object in Eo. destruct (fb_objects fb) as [objs|]; [|discriminate]. rewrite Eo.
        rewrite (find_contract_right _ _ _ _ _ _ _ _ _ Hb Hc Hf).
        destruct (fo_contract o) as [found|]; [|discriminate]. cbn in Hj. injection Hj as <-.
        rewrite Nat.eqb_refl. cbn [negb]. rewrite Hns, <- W2. discriminate.
      - destruct (W4 _ _ H3) as [fv' [F1 [F2 _]]]. unfold buf_field in F1. rewrite H1, H2 in F1. congruence. }
  2:{ exfalso. destruct Hv as [n [H1 H2]]. destruct (Hfld _ H1) as [i [t [fv [F1 [F2 [F3 [F4 F5]]]]]]].
      destruct H2 as [H2|[g H2]]; [congruence|]. rewrite F3 in H2. injection H2 as ->. destruct t as [p|p]; destruct p; discriminate. }
  destruct (deserialize_obj d c j o) as [r d'] eqn:Ed. exists o, d'. split; auto.
  pose proof (deserialize_obj_cases _ _ _ _ _ _ _ _ _ _ _ _ Hd Hc Ev Ed) as Hcase.
  destruct r as [[]|e|]; auto; exfalso.
  - destruct Hcase as [Hcase|[[i [ci [H1 H2]]]|[i [n [oi [H1 [H2 H3]]]]]]]; auto.
    + destruct (W5 _ _ H1) as [c' [K1 K2]]. apply (H2 (ci_handle c')). apply (db_reg _ _ _ _ _ _ _ Hb). eauto.
    + assert (Hr : is_ref fb n = true) by (apply is_ref_iff; eauto).
      assert (Hin : In n (ref_states fb j)) by (apply filter_In; split; auto; eapply nth_error_In; eauto).
      destruct H3 as [H3|[i' [L1 L2]]]; [apply (Hdis _ Hin H3)|].
      unfold ref_states in Hnd. rewrite nodup_filter_pos in Hnd. specialize (Hnd _ _ _ H1 L2 Hr). lia.
  - destruct Hcase as [[n [H1 H2]]|[oh H1]]; [|apply (Hnm _ H1)].
    destruct (Hfld _ H1) as [i [t [fv [F1 [F2 [F3 [F4 F5]]]]]]]. congruence.
Qed.

(** The loop over the objects of a contract. *)
Lemma each_exact fb k cs c idx : forall l d s fs fc r d',
  dinv fb k cs d s fs fc -> In c cs -> find_serialized_contract fb (ci_ty c) = Ok idx ->
  (forall j, In j l -> buf_contract fb j = Some idx) -> NoDup l ->
  (forall j oh, In j l -> ~ In (oh, j) (ds_objects d)) ->
  NoDup (map fst (ds_refs d)) -> deserialize_each d c l = (r, d') ->
  (r = Ok tt <-> (forall j, In j l -> well_formed fb cs c j) /\
                 NoDup (map fst (ds_refs d) ++ flat_map (ref_states fb) l)) /\
  (r = Ok tt -> map fst (ds_refs d') = map fst (ds_refs d) ++ flat_map (ref_states fb) l).
Proof.
  induction l as [|j l IH]; intros d s fs fc r d' Hd Hc Hf Hl Hnd Hnm Hk E; cbn [deserialize_each flat_map] in *.
  - injection E as <- <-. rewrite app_nil_r. split; auto. split; auto. intros _. split; auto. intros j [].
  - apply NoDup_cons_iff in Hnd. destruct Hnd as [Hnj Hnd].
    destruct (validate_obj (ds_b d) c j) as [o|e|] eqn:Ev.
    2,3: (injection E as <- <-; split; [|discriminate]; split; [discriminate|]; intros [H1 H2];
      rewrite !nodup_app_iff in H2; destruct H2 as [_ [[H2 _] H3]];
      destruct (one_object_exact _ _ _ _ _ _ _ _ _ _ Hd Hc Hf (Hl j (or_introl eq_refl)) (fun oh => Hnm j oh (or_introl eq_refl))
        (H1 j (or_introl eq_refl)) H2) as [o [d2 [E1 E2]]]; [|congruence];
      intros n Hn Hin; apply (H3 n Hin); apply in_or_app; auto).
    destruct (deserialize_obj d c j o) as [r1 d1] eqn:Ed.
    assert (Hone : r1 <> Ok tt -> ~ ((forall j0, In j0 (j :: l) -> well_formed fb cs c j0) /\
                 NoDup (map fst (ds_refs d) ++ ref_states fb j ++ flat_map (ref_states fb) l))).
    { intros Hne [H1 H2]. rewrite !nodup_app_iff in H2; destruct H2 as [_ [[H2 _] H3]].
      destruct (one_object_exact _ _ _ _ _ _ _ _ _ _ Hd Hc Hf (Hl j (or_introl eq_refl)) (fun oh => Hnm j oh (or_introl eq_refl))
        (H1 j (or_introl eq_refl)) H2) as [o' [d2 [E1 E2]]]; [|congruence].
      intros n Hn Hin; apply (H3 n Hin); apply in_or_app; auto. }
    destruct (deserialize_obj_spec _ _ _ _ _ _ _ _ _ _ _ _ Hd Hc Ev Ed) as [Hct H].
    destruct r1 as [[]|e|].
    2,3: (injection E as <- <-; split; [|discriminate]; split; [discriminate|]; intros HH; exfalso; apply Hone; auto; discriminate).
    destruct H as [s1 [fs1 [fc1 [oh [Hd1 Ho]]]]].
    destruct (deserialize_obj_ok_inv _ _ _ _ _ _ _ _ _ _ _ Hd Hc Ev Ed) as [Hw [Hr1 Hn1]].
    destruct (IH d1 s1 fs1 fc1 r d' Hd1 Hc Hf) as [I1 I2]; auto.
    { intros j' Hj'. apply Hl. right; auto. }
    { intros j' oh' Hj' Hin. rewrite Ho in Hin. apply in_app_or in Hin. destruct Hin as [Hin|[Hin|[]]].
      - apply (Hnm j' oh'); [right; auto|auto].
      - injection Hin as _ <-. auto. }
    rewrite Hr1, <- app_assoc in I1, I2. split; auto. rewrite I1. split.
    + intros [H1 H2]. split; auto. intros j' [<-|Hj']; auto.
    + intros [H1 H2]. split; auto. intros j' Hj'. apply H1. right; auto.
Qed.

Lemma nodup_flat_map {A B} (f : A -> list B) : forall l, NoDup l ->
  (NoDup (flat_map f l) <-> (forall a, In a l -> NoDup (f a)) /\
     forall a b x, In a l -> In b l -> In x (f a) -> In x (f b) -> a = b).
Proof.
  induction l as [|a l IH]; intros Hnd; cbn.
  - split; [intros _; split; [intros ? []|intros ? ? ? []]|constructor].
  - apply NoDup_cons_iff in Hnd. destruct Hnd as [Hna Hnd]. rewrite nodup_app_iff, (IH Hnd). split.
    + intros [H1 [[H2 H3] H4]]. split.
      * intros b [<-|Hb]; auto.
      * intros b c x [<-|Hb] [<-|Hc] Hx Hy; auto; [| |eapply H3; eauto].
        -- exfalso. apply (H4 x Hx). apply in_flat_map. eauto.
        -- exfalso. apply (H4 x Hy). apply in_flat_map. eauto.
    + intros [H1 H2]. split; [apply H1; auto|]. split; [split|].
      * intros b Hb. apply H1; auto.
      * intros b c x Hb Hc. apply H2; auto.
      * intros x Hx Hin. apply in_flat_map in Hin. destruct Hin as [b [Hb Hx']].
        assert (a = b) by (eapply H2; eauto). subst b. auto.
Qed.

(** An accepted object was not made before. *)
Lemma deserialize_obj_ok_new d c j o d' oh :
  deserialize_obj d c j o = (Ok tt, d') -> ~ In (oh, j) (ds_objects d).
Proof.
  unfold deserialize_obj.
  destruct (match fo_states o with Some l => _ | None => _ end); [discriminate|].
  destruct (build_props (ds_b d) (ds_refs d) _) as [[[ps ns]|e|] refs]; try discriminate.
  destruct (object_create (d_base (ds_b d)) c ps []) as [[oh'|e|] b1]; try discriminate.
  destruct (track_nulls b1 oh' ns (ds_states d)) as [[u|e|] st]; try discriminate.
  destruct (bm_fresh index_eqb Nat.eqb oh' j (ds_objects d)) eqn:Ef; [|discriminate].
  intros _ Hin. rewrite (bm_fresh_true _ _ index_eqb_spec Nat.eqb_spec) in Ef.
  destruct (Ef _ _ Hin) as [_ H]. auto.
Qed.

(** The objects of the buffer that belong to [c], in order. *)
Definition objects_of (fb : fb_baseline) (idx : nat) : list nat :=
  match fb_objects fb with Some l => objects_with_contract_idx idx 0 l | None => [] end.
Lemma objects_of_in fb idx j : In j (objects_of fb idx) <-> buf_contract fb j = Some idx.
Proof.
  unfold objects_of, buf_contract, buf_object. destruct (fb_objects fb) as [objs|].
  2:{ split; [intros []|discriminate]. }
  rewrite objects_with_idx, Nat.sub_0_r. split.
  - intros [_ [o [c [H1 [H2 H3]]]]]. rewrite H1, H2. cbn. congruence.
  - destruct (nth_error objs j) as [o|]; [|discriminate]. destruct (fo_contract o) as [c|] eqn:Ec; [|discriminate].
    cbn. intros E; injection E as E. split; [lia|]. eauto.
Qed.
Lemma objects_of_nodup fb idx : NoDup (objects_of fb idx).
Proof. unfold objects_of. destruct (fb_objects fb); [apply objects_with_idx_nodup|constructor]. Qed.
Lemma objects_with_idx_sorted idx : forall l i0, match objects_with_contract_idx idx i0 l with
  | [] => True | j :: t => forall j', In j' t -> j < j' end.
Proof.
  induction l as [|o l IH]; intros i0; cbn; auto.
  destruct (fo_contract o) as [c|]; [|apply IH].
  destruct (Nat.eqb (N.to_nat c) idx); [|apply IH].
  intros j' Hj'. apply objects_with_idx in Hj'. lia.
Qed.
Lemma objects_of_least fb idx j t j' : objects_of fb idx = j :: t -> In j' t -> j < j'.
Proof.
  unfold objects_of. destruct (fb_objects fb) as [l|]; [|discriminate].
  pose proof (objects_with_idx_sorted idx l 0) as H. intros E. rewrite E in H. auto.
Qed.

Lemma deserialize_objects_each fb k cs d s fs fc c idx :
  dinv fb k cs d s fs fc -> In c cs -> find_serialized_contract fb (ci_ty c) = Ok idx ->
  deserialize_objects d c = deserialize_each d c (objects_of fb idx).
Proof.
  intros Hd Hc Hf. pose proof (di_b _ _ _ _ _ _ _ Hd) as Hb. unfold deserialize_objects, objects_of.
  rewrite (find_contract_right _ _ _ _ _ _ _ _ _ Hb Hc Hf), (db_fb _ _ _ _ _ _ _ Hb).
  destruct (fb_objects fb); reflexivity.
Qed.

Lemma same_contract fb k cs d s fs fc c c' idx :
  dbinv fb k cs d s fs fc -> In c cs -> In c' cs ->
  find_serialized_contract fb (ci_ty c) = Ok idx -> find_serialized_contract fb (ci_ty c') = Ok idx -> c' = c.
Proof.
  intros Hb Hc Hc' H1 H2.
  assert (Eh : ci_handle c' = ci_handle c).
  { assert (I1 : In (idx, ci_handle c') (d_contracts d)) by (apply (db_reg _ _ _ _ _ _ _ Hb); eauto).
    assert (I2 : In (idx, ci_handle c) (d_contracts d)) by (apply (db_reg _ _ _ _ _ _ _ Hb); eauto).
    apply (db_bij _ _ _ _ _ _ _ Hb _ _ _ _ I1 I2). auto. }
  pose proof (rs_con_of _ _ _ _ _ _ _ _ Hb Hc) as R1. pose proof (rs_con_of _ _ _ _ _ _ _ _ Hb Hc') as R2.
  destruct c, c'; cbn in *. congruence.
Qed.

(** After successful calls only: the references tracked, the objects made. *)
Record covered (fb : fb_baseline) (cs done : list contract_inst) (d : deser) : Prop := {
  cv_nodup : NoDup (map fst (ds_refs d));
  cv_keys : forall n, In n (map fst (ds_refs d)) <-> exists c idx j, In c done /\
     find_serialized_contract fb (ci_ty c) = Ok idx /\ buf_contract fb j = Some idx /\ In n (ref_states fb j);
  cv_made : forall oh j, In (oh, j) (ds_objects d) -> exists c idx, In c done /\
     find_serialized_contract fb (ci_ty c) = Ok idx /\ buf_contract fb j = Some idx;
  cv_wf : forall c idx j, In c done -> find_serialized_contract fb (ci_ty c) = Ok idx -> buf_contract fb j = Some idx ->
     well_formed fb cs c j
}.

Lemma first_time fb k cs done d s fs fc c idx r d' :
  dinv fb k cs d s fs fc -> covered fb cs done d -> incl done cs -> In c cs -> ~ In c done ->
  find_serialized_contract fb (ci_ty c) = Ok idx ->
  deserialize_objects d c = (r, d') ->
  (r = Ok tt <-> (forall j, In j (objects_of fb idx) -> well_formed fb cs c j) /\
                 NoDup (map fst (ds_refs d) ++ flat_map (ref_states fb) (objects_of fb idx))) /\
  (r = Ok tt -> map fst (ds_refs d') = map fst (ds_refs d) ++ flat_map (ref_states fb) (objects_of fb idx)).
Proof.
  intros Hd Hcov Hincl Hc Hnd Hf E. rewrite (deserialize_objects_each _ _ _ _ _ _ _ _ _ Hd Hc Hf) in E.
  eapply each_exact; eauto.
  - intros j. apply objects_of_in.
  - apply objects_of_nodup.
  - intros j oh Hj Hin. apply objects_of_in in Hj. destruct (cv_made _ _ _ _ Hcov _ _ Hin) as [c' [idx' [H1 [H2 H3]]]].
    assert (idx' = idx) by congruence. subst idx'. apply Hnd.
    rewrite <- (same_contract _ _ _ _ _ _ _ c c' idx (di_b _ _ _ _ _ _ _ Hd) Hc (Hincl _ H1) Hf H2). auto.
  - apply (cv_nodup _ _ _ _ Hcov).
Qed.

Lemma cinst_dec (a b : contract_inst) : {a = b} + {a <> b}.
Proof. repeat decide equality. Qed.

Lemma covered_step fb k cs done d s fs fc c d' :
  dinv fb k cs d s fs fc -> covered fb cs done d -> incl done cs ->
  (forall c idx j, In c done -> find_serialized_contract fb (ci_ty c) = Ok idx -> buf_contract fb j = Some idx ->
       exists o, In (o, j) (ds_objects d)) ->
  In c cs -> deserialize_objects d c = (Ok tt, d') -> covered fb cs (done ++ [c]) d'.
Proof.
  intros Hd Hcov Hincl Hall Hc E. pose proof (di_b _ _ _ _ _ _ _ Hd) as Hb.
  destruct (db_found _ _ _ _ _ _ _ Hb _ Hc) as [idx Hf].
  destruct (in_dec cinst_dec c done) as [Hin|Hnin].
  - (* again: there is no object *)
    rewrite (deserialize_objects_each _ _ _ _ _ _ _ _ _ Hd Hc Hf) in E.
    pose proof (objects_of_in fb idx) as Hoi.
    destruct (objects_of fb idx) as [|j t].
    + cbn in E. injection E as <-. destruct Hcov as [H1 H2 H3 H4]. constructor; auto.
      * intros n. rewrite H2. split.
        -- intros [c' [i' [j [A1 A2]]]]. exists c', i', j. rewrite in_app_iff. auto.
        -- intros [c' [i' [j [A1 A2]]]]. exists c', i', j. apply in_app_or in A1. destruct A1 as [A1|[<-|[]]]; auto.
      * intros oh j Hj. destruct (H3 _ _ Hj) as [c' [i' [A1 A2]]]. exists c', i'. rewrite in_app_iff. auto.
      * intros c' i' j A1. apply in_app_or in A1. destruct A1 as [A1|[<-|[]]]; eauto.
    + exfalso. cbn in E. destruct (validate_obj (ds_b d) c j) as [o|e|] eqn:Ev; try discriminate.
      destruct (deserialize_obj d c j o) as [[[]|e|] d1] eqn:Ed; try discriminate.
      destruct (Hall c idx j Hin Hf) as [oh Ho]; [apply Hoi; left; auto|].
      eapply deserialize_obj_ok_new; eauto.
  - destruct (first_time _ _ _ _ _ _ _ _ _ _ _ _ Hd Hcov Hincl Hc Hnin Hf E) as [[H1 _] H2].
    destruct (H1 eq_refl) as [Hw Hnd]. specialize (H2 eq_refl).
    destruct (deserialize_objects_spec _ _ _ _ _ _ _ _ _ _ Hd Hc E) as [s' [fs' [fc' [new [Hd' [Ho Hn]]]]]]; [discriminate|].
    specialize (Hn eq_refl). constructor.
    + rewrite H2. auto.
    + intros n. rewrite H2, in_app_iff, (cv_keys _ _ _ _ Hcov), in_flat_map. split.
      * intros [[c' [i' [j [A1 A2]]]]|[j [A1 A2]]].
        -- exists c', i', j. rewrite in_app_iff. auto.
        -- exists c, idx, j. rewrite in_app_iff. cbn. apply objects_of_in in A1. auto.
      * intros [c' [i' [j [A1 [A2 [A3 A4]]]]]]. apply in_app_or in A1. destruct A1 as [A1|[<-|[]]]; [left; eauto 10|].
        right. exists j. rewrite objects_of_in. split; auto. congruence.
    + intros oh j Hin. rewrite Ho in Hin. apply in_app_or in Hin. destruct Hin as [Hin|Hin].
      * destruct (cv_made _ _ _ _ Hcov _ _ Hin) as [c' [i' [A1 A2]]]. exists c', i'. rewrite in_app_iff. auto.
      * assert (Hj : In j (map snd new)) by (apply in_map_iff; exists (oh, j); auto).
        apply Hn in Hj. destruct Hj as [i' Hj]. exists c, i'. rewrite in_app_iff. cbn. auto.
    + intros c' i' j A1 A2 A3. apply in_app_or in A1. destruct A1 as [A1|[<-|[]]].
      * eapply (cv_wf _ _ _ _ Hcov); eauto.
      * apply Hw. apply objects_of_in. congruence.
Qed.

Lemma deserializes_len fb k cs tried done d : deserializes fb k cs tried done d -> length done <= length tried.
Proof. induction 1; cbn; rewrite ?app_length; cbn; lia. Qed.

Lemma deserializes_covered fb k cs tried done d :
  deserializes fb k cs tried done d -> tried = done -> covered fb cs done d.
Proof.
  induction 1 as [d Hb|tried done d c d' H IH Hc E|tried done d c e d' H IH Hc E]; intros Et.
  - constructor; cbn.
    + constructor.
    + intros n. split; [intros []|]. intros [c [i [j [[] _]]]].
    + intros oh j [].
    + intros c i j [].
  - apply app_inj_tail in Et. destruct Et as [-> _].
    destruct (deserializes_inv _ _ _ _ _ _ H) as [s [fs [fc [Hd [Hi1 [Hi2 Hcov]]]]]].
    eapply covered_step; eauto.
  - exfalso. apply deserializes_len in H. rewrite <- Et, app_length in H. cbn in H. lia.
Qed.

(** Once more: the first object's first reference is tracked already. *)
Lemma build_props_again fb d : d_fb d = fb -> forall l refs,
  (forall id n, In (id, n) l -> exists fv, buf_state fb (N.to_nat n) = Some fv /\
     tag_eq_ptype (p_type fv) (pid_type id) = true /\ fv <> FFbString None /\
     forall ci, fv = FContractDataHandle ci -> exists h, bm_left Nat.eqb (N.to_nat ci) (d_contracts d) = Some h) ->
  (forall n, In n (filter (is_ref fb) (map (fun p => N.to_nat (snd p)) l)) -> In n (map fst refs)) ->
  filter (is_ref fb) (map (fun p => N.to_nat (snd p)) l) <> [] ->
  build_props d refs l = (Err EObjRefTracked, refs).
Proof.
  intros Hfb. induction l as [|[id n] l IH]; intros refs Hty Hin Hne; cbn -[existsb] in *; [congruence|].
  destruct (Hty id n (or_introl eq_refl)) as [fv [H1 [H2 [H3 H4]]]].
  pose proof H1 as Hs. unfold buf_state in Hs. rewrite Hfb.
  destruct (fb_states fb) as [states|] eqn:Efs; [|discriminate]. rewrite Hs.
  destruct (is_ref fb (N.to_nat n)) eqn:Er.
  - apply is_ref_iff in Er. destruct Er as [oi Er]. assert (fv = FObjectHandle oi) by congruence. subst fv. cbn [decode].
    assert (Hk : existsb (fun p => Nat.eqb (fst p) (N.to_nat n)) refs = true) by (apply refs_in_keys, Hin; left; auto).
    rewrite Hk. reflexivity.
  - assert (Hd : exists p, decode (d_contracts d) fv = Ok (DVal p)).
    { destruct fv as [| | | | | | | | | | |[x|]|oi|ci| |]; cbn; eauto; try congruence.
      - unfold is_ref in Er. rewrite H1 in Er. discriminate.
      - destruct (H4 _ eq_refl) as [h Eh]. rewrite Eh. eauto.
      - destruct (pid_type id) as [p|p]; destruct p; discriminate.
      - destruct (pid_type id) as [p|p]; destruct p; discriminate. }
    destruct Hd as [p Hd]. rewrite Hd.
    rewrite (IH refs); auto.
Qed.

Lemma validate_wf fb k cs d s fs fc c idx j :
  dbinv fb k cs d s fs fc -> In c cs -> find_serialized_contract fb (ci_ty c) = Ok idx ->
  buf_contract fb j = Some idx -> well_formed fb cs c j -> exists o, validate_obj d c j = Ok o.
Proof.
  intros Hb Hc Hf Hj [W1 [W2 [W3 [W4 W5]]]].
  pose proof (validate_obj_cases _ _ _ _ _ _ _ _ _ _ Hb Hc Hf Hj) as Hv.
  destruct (validate_obj d c j) as [o|e|] eqn:Ev; [eauto| |]; exfalso.
  - destruct Hv as [Hv|[Hv|[i [n [t [fv [H1 [H2 [H3 H4]]]]]]]]]; auto.
    + destruct (buf_object fb j) as [o|] eqn:Eo; [|unfold buf_contract in Hj; rewrite Eo in Hj; discriminate].
      assert (Hns : fo_states o = None).
      { destruct (fo_states o) as [l|] eqn:Es; auto. exfalso. apply (W3 o); auto. congruence. }
      revert Ev. unfold validate_obj. rewrite (db_fb _ _ _ _ _ _ _ Hb).
      unfold buf_contract in Hj. rewrite Eo in Hj.
      unfold buf_indices in W2. rewrite Eo, Hns in W2. cbn in W2.
      unfold buf_object in Eo. destruct (fb_objects fb) as [objs|]; [|discriminate]. rewrite Eo.
      rewrite (find_contract_right _ _ _ _ _ _ _ _ _ Hb Hc Hf).
      destruct (fo_contract o) as [found|]; [|discriminate]. cbn in Hj. injection Hj as <-.
      rewrite Nat.eqb_refl. cbn [negb]. rewrite Hns, <- W2. discriminate.
    + destruct (W4 _ _ H3) as [fv' [F1 [F2 _]]]. unfold buf_field in F1. rewrite H1, H2 in F1. congruence.
  - destruct Hv as [n [H1 H2]]. apply In_nth_error in H1. destruct H1 as [i Hi].
    pose proof (nth_error_lt _ _ _ Hi) as Hlt. rewrite W2 in Hlt.
    destruct (nth_error (ct_states (ci_ty c)) i) as [t|] eqn:Et. 2:{ apply nth_error_None in Et. lia. }
    destruct (W4 _ _ Et) as [fv [F1 [F2 F3]]]. unfold buf_field in F1. rewrite Hi in F1.
    destruct H2 as [H2|[g H2]]; [congruence|]. rewrite F1 in H2. injection H2 as ->. destruct t as [p|p]; destruct p; discriminate.
Qed.

Lemma second_time fb k cs done d s fs fc c idx r d' :
  dinv fb k cs d s fs fc -> covered fb cs done d -> incl done cs ->
  (forall c idx j, In c done -> find_serialized_contract fb (ci_ty c) = Ok idx -> buf_contract fb j = Some idx ->
       exists o, In (o, j) (ds_objects d)) ->
  In c done -> find_serialized_contract fb (ci_ty c) = Ok idx -> deserialize_objects d c = (r, d') ->
  match objects_of fb idx with
  | [] => r = Ok tt /\ d' = d
  | j :: _ => match ref_states fb j with
              | [] => r = Panic
              | _ => r = Err EObjRefTracked /\ d' = d
              end
  end.
Proof.
  intros Hd Hcov Hincl Hall Hcd Hf E. pose proof (di_b _ _ _ _ _ _ _ Hd) as Hb.
  pose proof (Hincl _ Hcd) as Hc.
  rewrite (deserialize_objects_each _ _ _ _ _ _ _ _ _ Hd Hc Hf) in E.
  pose proof (objects_of_in fb idx) as Hoi.
  destruct (objects_of fb idx) as [|j t]; cbn in E.
  - injection E as <- <-. auto.
  - assert (Hj : buf_contract fb j = Some idx) by (apply Hoi; left; auto).
    pose proof (cv_wf _ _ _ _ Hcov _ _ _ Hcd Hf Hj) as Hw.
    destruct (validate_wf _ _ _ _ _ _ _ _ _ _ Hb Hc Hf Hj Hw) as [o Ev]. rewrite Ev in E.
    destruct (Hall _ _ _ Hcd Hf Hj) as [oh Hmade].
    destruct (deserialize_obj d c j o) as [r1 d1] eqn:Ed.
    assert (Hr1 : r1 <> Ok tt).
    { intros ->. eapply deserialize_obj_ok_new; eauto. }
    assert (Er : r = r1 /\ d' = d1).
    { destruct r1 as [[]|e|]; [congruence| |]; injection E as <- <-; auto. }
    destruct Er as [-> ->]. clear E.
    destruct Hw as [W1 [W2 [W3 [W4 W5]]]].
    destruct (ref_states fb j) as [|n0 rest] eqn:Erefs.
    + pose proof (deserialize_obj_cases _ _ _ _ _ _ _ _ _ _ _ _ Hd Hc Ev Ed) as Hcase.
      destruct r1 as [[]|e|]; [congruence| |auto]. exfalso.
      destruct Hcase as [Hcase|[[i [ci [H1 H2]]]|[i [n [oi [H1 [H2 H3]]]]]]]; auto.
      * destruct (W5 _ _ H1) as [c' [K1 K2]]. apply (H2 (ci_handle c')). apply (db_reg _ _ _ _ _ _ _ Hb). eauto.
      * assert (Hin : In n (ref_states fb j)).
        { apply filter_In. split; [eapply nth_error_In; eauto|apply is_ref_iff; eauto]. }
        rewrite Erefs in Hin. destruct Hin.
    + destruct (validate_obj_ok _ _ _ _ _ _ _ _ _ _ Hb Hc Ev) as [Hbo [_ [_ _]]].
      pose proof (obj_idxs_buf _ _ _ Hbo) as Hidx.
      assert (Hlen' : length (obj_idxs o) = length (ct_states (ci_ty c))).
      { rewrite Hidx, map_length in W2. auto. }
      revert Ed. unfold deserialize_obj. fold (obj_idxs o).
      assert (Hsane : (match fo_states o with Some l => negb (Nat.eqb (length l) (length (ct_states (ci_ty c)))) | None => false end) = false).
      { unfold obj_idxs in Hlen'. destruct (fo_states o); auto. rewrite Hlen', Nat.eqb_refl. reflexivity. }
      rewrite Hsane. rewrite (build_props_again fb (ds_b d) (db_fb _ _ _ _ _ _ _ Hb)).
      * intros E; injection E as <- <-. split; auto. destruct d; reflexivity.
      * intros id n Hin. apply In_nth_error in Hin. destruct Hin as [i Hi].
        rewrite nth_error_combine, state_ids_nth in Hi.
        destruct (nth_error (ct_states (ci_ty c)) i) as [ty|] eqn:Ety; cbn in Hi; [|discriminate].
        destruct (nth_error (obj_idxs o) i) as [n'|] eqn:En; [|discriminate].
        assert (id = mkPid ty i (ci_handle c) /\ n' = n) as [-> ->] by (injection Hi as <- <-; auto).
        destruct (W4 _ _ Ety) as [fv [F1 [F2 F3]]]. pose proof F1 as F1'. unfold buf_field in F1.
        rewrite Hidx, nth_error_map, En in F1. cbn in F1. exists fv. split; auto. split; auto. split; auto.
        intros ci ->. destruct (W5 _ _ F1') as [c' [K1 K2]]. exists (ci_handle c').
        apply (bm_left_iff Nat.eqb Nat.eqb_spec); [apply (db_bij _ _ _ _ _ _ _ Hb)|].
        apply (db_reg _ _ _ _ _ _ _ Hb). eauto.
      * rewrite (refs_of_object _ _ _ _ Hbo Hlen'). intros n Hn. apply (cv_keys _ _ _ _ Hcov). exists c, idx, j. auto.
      * rewrite (refs_of_object _ _ _ _ Hbo Hlen'). congruence.
Qed.
