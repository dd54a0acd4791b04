(** The result of [Deserializer::finish]. *)
From Verif Require Export DeserProofs.
Open Scope nat_scope.

Lemma rec_unregister b s fs fc C h ord r b' :
  rrel b s fs fc -> rs_con s h = Some C -> Permutation ord (rs_mem s h) ->
  fieldless C = true -> (forall o, In o (rs_mem s h) -> live_obj s o <> None) ->
  unregister_contract b C h ord = (r, b') ->
  r = Ok tt /\ b_kind b' = b_kind b /\
  exists fs' fc', rrel b' (rnext s (RUnregister C h ord) (Ok YUnit)) fs' fc'.
Proof.
  intros Hr Hc Hp Hf Hl E.
  assert (Hd : disciplined s (RUnregister C h ord)) by (cbn; auto).
  assert (Hs : cstep b (RUnregister C h ord) = (omap (fun _ => YUnit) r, b')).
  { cbn. unfold on_fst. rewrite E. reflexivity. }
  destruct (good_all _ _ _ _ _ Hr Hd _ _ Hs) as [Ha Hn]. cbn [allowed] in Ha. rewrite Hc in Ha.
  rewrite contract_id_eqb_refl in Ha.
  destruct Ha as [[Ha _]|[Ha Hno]].
  2:{ exfalso. apply Hno. right. auto. }
  destruct r as [[]|e|]; try discriminate. split; auto. split; [|apply Hn; discriminate].
  pose proof (rr_con _ _ _ _ Hr h) as Hcon. rewrite Hc in Hcon. destruct Hcon as [cd [Hg [Hid Hm]]].
  destruct (unregister_spec b C h ord (rr_inv _ _ _ _ Hr)) as [[H1 H2]|[cd' [H1 [[H2 H3]|[H2 [[b1 [H3 H4]]|[_ H3]]]]]]].
  - intros cd' Hcd. rewrite Hg in Hcd. injection Hcd as <-. rewrite Hm. auto.
  - congruence.
  - rewrite H3 in E. discriminate.
  - rewrite H3 in E. injection E as <-. destruct H4 as [cd2 [os' H4]]. tauto.
  - rewrite E in H3. discriminate.
Qed.

Lemma ref_of_refs fb refs n oi :
  refs_ok fb refs -> In (n, oi) refs -> ref_of refs n = Some oi.
Proof.
  intros Hok Hin. unfold ref_of. destruct (find _ refs) as [[n' oi']|] eqn:E.
  - apply find_some in E. destruct E as [Hin' E]. apply Nat.eqb_eq in E. cbn in *. subst n'.
    destruct (Hok _ _ Hin) as [j [H1 ->]]. destruct (Hok _ _ Hin') as [j' [H2 ->]]. congruence.
  - exfalso. pose proof (find_none _ _ E _ Hin) as H. cbn in H. rewrite Nat.eqb_refl in H. discriminate.
Qed.
Lemma ref_of_key refs n : In n (map fst refs) -> ref_of refs n <> None.
Proof.
  intros Hin. apply in_map_iff in Hin. destruct Hin as [[n' oi] [E Hin]]. cbn in E. subst n'.
  unfold ref_of. destruct (find _ refs) as [p|] eqn:E; [discriminate|].
  pose proof (find_none _ _ E _ Hin) as H. cbn in H. rewrite Nat.eqb_refl in H. discriminate.
Qed.
Lemma ref_of_in refs n oi : ref_of refs n = Some oi -> In (n, oi) refs.
Proof.
  unfold ref_of. destruct (find _ refs) as [[n' oi']|] eqn:E; [|discriminate].
  cbn. intros H; injection H as <-. apply find_some in E. destruct E as [Hin E]. apply Nat.eqb_eq in E. cbn in E. subst. auto.
Qed.

Lemma decode_stands (obj con : nat -> index -> Prop) contracts fv v :
  (forall idx h, bm_left Nat.eqb idx contracts = Some h -> con idx h) ->
  decode contracts fv = Ok (DVal v) -> stands_for obj con fv v.
Proof.
  intros Hc. destruct fv as [| | | | | | | | | | |os| |i| |]; cbn; try discriminate;
    try (intros E; injection E as <-; constructor; fail).
  - destruct os; [|discriminate]. intros E; injection E as <-. constructor.
  - destruct (bm_left Nat.eqb (N.to_nat i) contracts) as [h|] eqn:Eb; [|discriminate].
    intros E; injection E as <-. constructor. auto.
Qed.

Lemma made_from_impl fb cs s o j (F G : nat -> nat -> fbval -> dynprop -> Prop) :
  (forall i n fv v, F i n fv v -> G i n fv v) -> made_from fb cs s o j F -> made_from fb cs s o j G.
Proof.
  intros H [c [ro [idx [A1 [A2 [A3 [A4 [A5 [A6 [A7 [A8 [A9 A10]]]]]]]]]]]].
  exists c, ro, idx. repeat (split; [assumption|]).
  intros i v Hv. destruct (A10 _ _ Hv) as [n [fv [B1 [B2 B3]]]]. exists n, fv. auto.
Qed.

(** What [finish] can return. *)
Lemma finish_spec fb k cs d s fs fc r :
  dinv fb k cs d s fs fc -> finishes d r ->
  match r with
  | Panic => False
  | Err e => e = EDanglingObjectRef /\
      exists o j i oi, In (o, j) (ds_objects d) /\ buf_field fb j i = Some (FObjectHandle oi) /\
        forall o', ~ In (o', N.to_nat oi) (ds_objects d)
  | Ok b' =>
      (exists s' fs' fc', rrel b' s' fs' fc' /\ b_kind b' = k /\
        (forall h C, rs_con s' h = Some C <-> In (mkCinst C h) cs) /\
        (forall o, live_obj s' o <> None <-> exists j, In (o, j) (ds_objects d)) /\
        (forall c o, In c cs -> In o (rs_mem s' (ci_handle c)) -> exists j, In (o, j) (ds_objects d)) /\
        (forall o j, In (o, j) (ds_objects d) ->
           made_from fb cs s' o j (fun _ _ => stands_for (fun j' o' => In (o', j') (ds_objects d))
             (fun idx h => In (idx, h) (d_contracts (ds_b d)))))) /\
      (forall o j i oi, In (o, j) (ds_objects d) -> buf_field fb j i = Some (FObjectHandle oi) ->
         exists o', In (o', N.to_nat oi) (ds_objects d))
  end.
Proof.
  intros Hd [ord [ordn [Hp [Hpn E]]]].
  pose proof (di_b _ _ _ _ _ _ _ Hd) as Hb. pose proof (db_rel _ _ _ _ _ _ _ Hb) as Hr.
  unfold deser_finish in E.
  destruct (restore_refs (ds_refs d) (ds_objects d) (d_base (ds_b d)) ord) as [r1 b1] eqn:Er.
  assert (Hin : forall n sh, In (n, sh) ord <-> In (n, sh) (ds_states d)).
  { intros n sh. split; apply Permutation_in; auto using Permutation_sym. }
  assert (Hbd : forall n sh, In (n, sh) ord -> exists o i, is_bound (rs_bound s) tobj sh o i).
  { intros n sh H. apply Hin in H. destruct (di_st _ _ _ _ _ _ _ Hd _ _ H) as [_ [o [i [j [_ [_ H3]]]]]]. eauto. }
  pose proof (restore_refs_spec _ _ _ _ _ _ _ _ _ Hr Hbd Er) as Hspec.
  destruct r1 as [[]|e|].
  2:{ destruct Hspec as [-> [n [sh [oi [H1 [H2 H3]]]]]]. subst r. split; auto.
      apply Hin in H1. destruct (di_st _ _ _ _ _ _ _ Hd _ _ H1) as [_ [o [i [j [Ho [Hi _]]]]]].
      apply ref_of_in in H2. destruct (di_refs _ _ _ _ _ _ _ Hd _ _ H2) as [oi' [Hbs ->]].
      exists o, j, i, oi'. split; auto. split.
      - unfold buf_field. rewrite Hi. auto.
      - exact (proj1 (bm_right_none Nat.eqb Nat.eqb_spec (ds_objects d) (N.to_nat oi')) H3). }
  2:{ destruct Hspec as [n [sh [H1 H2]]]. apply Hin in H1.
      destruct (di_st _ _ _ _ _ _ _ Hd _ _ H1) as [Hkey _]. exfalso. eapply ref_of_key; eauto. }
  destruct Hspec as [s1 [fs1 [fc1 [Hr1 [Hk1 [Hc1 [Hm1 Ho1]]]]]]].
  destruct (unregister_contract b1 NullContract (ci_handle (d_null (ds_b d))) ordn) as [r2 b2] eqn:Eu.
  set (nh := ci_handle (d_null (ds_b d))) in *.
  assert (Hcn : rs_con s nh = Some NullContract) by (apply (db_con _ _ _ _ _ _ _ Hb); auto).
  destruct (rec_unregister _ _ _ _ NullContract nh ordn r2 b2 Hr1) as [-> [Hk2 [fs2 [fc2 Hr2]]]]; auto.
  { congruence. }
  { rewrite Hm1. pose proof (rr_con _ _ _ _ Hr nh) as H. rewrite Hcn in H. destruct H as [cd [Hg [_ Hm]]].
    rewrite <- Hm. apply Hpn. exact Hg. }
  { rewrite Hm1. unfold nh. rewrite (db_nmem _ _ _ _ _ _ _ Hb). intros o [<-|[]].
    specialize (Ho1 (d_null_obj (ds_b d))). rewrite (db_nobj _ _ _ _ _ _ _ Hb) in Ho1. unfold live_obj.
    destruct (rs_obj s1 (d_null_obj (ds_b d))); cbn in Ho1; [|tauto]. destruct Ho1 as [_ [_ [_ [H _]]]]. rewrite H. discriminate. }
  subst r. cbn [rnext] in Hr2.
  (* the object references of every made object are tracked *)
  assert (Hres : forall o j i n oi, In (o, j) (ds_objects d) -> nth_error (buf_indices fb j) i = Some n ->
            buf_state fb n = Some (FObjectHandle oi) ->
            exists sh, In (n, sh) ord /\ is_bound (rs_bound s) tobj sh o i /\ ref_of (ds_refs d) n = Some (N.to_nat oi)).
  { intros o j i n oi Ho Hi Hbs.
    destruct (di_made _ _ _ _ _ _ _ Hd _ _ Ho) as [_ [c [ro [idx [A1 [A2 [A3 [A4 [A5 [A6 [A7 [A8 [A9 A10]]]]]]]]]]]]].
    destruct (nth_error (ro_vals ro) i) as [v|] eqn:Ev.
    2:{ apply nth_error_None in Ev. apply nth_error_lt in Hi. lia. }
    destruct (A10 _ _ Ev) as [n' [fv [B1 [B2 B3]]]].
    assert (n' = n) by congruence. subst n'. rewrite Hbs in B2. injection B2 as <-.
    destruct B3 as [B3|[oi' [sh [B3 [B4 [B5 [B6 B7]]]]]]]; [discriminate|].
    cbn in B3. injection B3 as <-. exists sh. split; [apply Hin; auto|]. split; auto.
    eapply ref_of_refs; eauto. apply (di_refs _ _ _ _ _ _ _ Hd). }
  assert (Hvals : forall o j, In (o, j) (ds_objects d) -> made_from fb cs s1 o j
     (fun _ _ => stands_for (fun j' o' => In (o', j') (ds_objects d)) (fun idx h => In (idx, h) (d_contracts (ds_b d))))).
  { intros o j Ho.
    destruct (di_made _ _ _ _ _ _ _ Hd _ _ Ho) as [_ [c [ro [idx [A1 [A2 [A3 [A4 [A5 [A6 [A7 [A8 [A9 A10]]]]]]]]]]]]].
    specialize (Ho1 o). rewrite A2 in Ho1. destruct (rs_obj s1 o) as [ro1|] eqn:Ero1; cbn in Ho1; [|tauto].
    destruct Ho1 as [P1 [P2 [P3 [P4 [P5 P6]]]]].
    exists c, ro1, idx. rewrite P1, P2, P3, P4, P5. repeat (split; [assumption|]).
    intros i v1 Hv1. destruct (nth_error (ro_vals ro) i) as [v|] eqn:Ev.
    2:{ apply nth_error_None in Ev. apply nth_error_lt in Hv1. lia. }
    destruct (A10 _ _ Ev) as [n [fv [B1 [B2 B3]]]]. exists n, fv. split; auto. split; auto.
    destruct (P6 _ _ Ev) as [v1' [Hv1' HR]]. rewrite Hv1 in Hv1'. injection Hv1' as <-.
    destruct B3 as [B3|[oi [sh [B3 [B4 [B5 [B6 B7]]]]]]].
    - (* a plain value is not touched *)
      destruct HR as [[n' [sh [oi [oh [R1 [R2 [R3 [R4 R5]]]]]]]]|[_ ->]].
      + exfalso. apply Hin in R1.
        destruct (di_st _ _ _ _ _ _ _ Hd _ _ R1) as [_ [o' [i' [j' [S1 [S2 S3]]]]]].
        assert (Eoi : (o', i') = (o, i)).
        { pose proof (rec_lookup _ _ _ _ _ _ _ _ Hr S3) as L1. pose proof (rec_lookup _ _ _ _ _ _ _ _ Hr R2) as L2. congruence. }
        injection Eoi as -> ->.
        assert (j' = j) by (apply (di_bij _ _ _ _ _ _ _ Hd _ _ _ _ S1 Ho); auto). subst j'.
        assert (n' = n) by congruence. subst n'.
        apply ref_of_in in R3. destruct (di_refs _ _ _ _ _ _ _ Hd _ _ R3) as [jj [Hbs ->]].
        rewrite Hbs in B2. injection B2 as <-. discriminate.
      + eapply decode_stands; eauto. intros idx' h' Hbm. eapply (bm_left_in Nat.eqb Nat.eqb_spec); eauto.
    - (* a reference is restored *)
      destruct (decode_ref _ _ _ B3) as [jj [-> ->]].
      destruct HR as [[n' [sh' [oi [oh [R1 [R2 [R3 [R4 R5]]]]]]]]|[Hno _]].
      2:{ exfalso. apply Hno. exists n, sh. split; [apply Hin; auto|auto]. }
      apply Hin in R1.
      destruct (di_st _ _ _ _ _ _ _ Hd _ _ R1) as [_ [o' [i' [j' [S1 [S2 S3]]]]]].
      assert (Eoi : (o', i') = (o, i)).
      { pose proof (rec_lookup _ _ _ _ _ _ _ _ Hr S3) as L1. pose proof (rec_lookup _ _ _ _ _ _ _ _ Hr R2) as L2. congruence. }
      injection Eoi as -> ->.
      assert (j' = j) by (apply (di_bij _ _ _ _ _ _ _ Hd _ _ _ _ S1 Ho); auto). subst j'.
      assert (n' = n) by congruence. subst n'.
      rewrite (ref_of_refs _ _ _ _ (di_refs _ _ _ _ _ _ _ Hd) B5) in R3. injection R3 as <-.
      subst v1. constructor. eapply (bm_right_in Nat.eqb Nat.eqb_spec); eauto. }
  assert (Hobj2 : forall o j, In (o, j) (ds_objects d) -> o <> d_null_obj (ds_b d) /\
       forall ro, rs_obj s1 o = Some ro -> index_eqb nh (ro_contract ro) = false).
  { intros o j Ho. destruct (di_made _ _ _ _ _ _ _ Hd _ _ Ho) as [Hn _]. split; auto.
    destruct (Hvals _ _ Ho) as [c [ro1 [idx [A1 [A2 [A3 [A4 _]]]]]]]. intros ro Hro. rewrite A2 in Hro. injection Hro as <-.
    destruct (index_eqb_spec nh (ro_contract ro1)); auto. exfalso. apply (db_nh _ _ _ _ _ _ _ Hb _ A1). fold nh. congruence. }
  split.
  - eexists _, fs2, fc2. split; [exact Hr2|]. split; [rewrite Hk2, Hk1; apply (db_kind _ _ _ _ _ _ _ Hb)|].
    cbn [rs_con rs_obj rs_mem]. split; [|split; [|split]].
    + intros h C. rewrite Hc1. destruct (index_eq_dec nh h) as [<-|Hne].
      * rewrite upd_eq. split; [discriminate|]. intros Hc. exfalso. apply (db_nh _ _ _ _ _ _ _ Hb _ Hc). reflexivity.
      * rewrite upd_neq by auto. rewrite (db_con _ _ _ _ _ _ _ Hb). split; [intros [[E _]|H]; [destruct Hne; symmetry; exact E|auto]|auto].
    + intros o. split.
      * unfold live_obj. cbn [rs_obj]. intros H. pose proof (Ho1 o) as Hoo.
        destruct (rs_obj s1 o) as [ro1|] eqn:Ero1; [|tauto].
        assert (Hso : rs_obj s o <> None) by (destruct (rs_obj s o); [discriminate|cbn in Hoo; tauto]).
        destruct (di_obj _ _ _ _ _ _ _ Hd _ Hso) as [->|Hj]; auto. exfalso.
        rewrite (db_nobj _ _ _ _ _ _ _ Hb) in Hoo. cbn in Hoo. destruct Hoo as [Hrc _].
        fold nh in Hrc. rewrite Hrc, index_eqb_refl in H. cbn in H. auto.
      * intros [j Ho]. destruct (Hvals _ _ Ho) as [c [ro1 [idx [A1 [A2 [A3 _]]]]]].
        destruct (Hobj2 _ _ Ho) as [_ Hne]. unfold live_obj. cbn [rs_obj]. rewrite A2, (Hne _ A2), A3. discriminate.
    + intros c o Hc Hin'. rewrite Hm1 in Hin'. destruct (db_mem _ _ _ _ _ _ _ Hb _ _ Hc Hin') as [H1 H2].
      destruct (di_obj _ _ _ _ _ _ _ Hd _ H1) as [H|H]; [congruence|auto].
    + intros o j Ho. destruct (Hvals _ _ Ho) as [c [ro1 [idx [A1 [A2 A3]]]]].
      destruct (Hobj2 _ _ Ho) as [_ Hne]. exists c, ro1, idx. split; auto. split; [|exact A3].
      cbn [rs_obj]. rewrite A2, (Hne _ A2). reflexivity.
  - intros o j i oi Ho Hbf. unfold buf_field in Hbf.
    destruct (nth_error (buf_indices fb j) i) as [n|] eqn:Ei; [|discriminate].
    destruct (Hvals _ _ Ho) as [c [ro1 [idx [A1 [A2 [A3 [A4 [A5 [A6 [A7 [A8 [A9 A10]]]]]]]]]]]].
    destruct (nth_error (ro_vals ro1) i) as [v|] eqn:Ev.
    2:{ apply nth_error_None in Ev. apply nth_error_lt in Ei. lia. }
    destruct (A10 _ _ Ev) as [n' [fv [B1 [B2 B3]]]]. assert (n' = n) by congruence. subst n'.
    rewrite Hbf in B2. injection B2 as <-. inversion B3; subst. eauto.
Qed.
