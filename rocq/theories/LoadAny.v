(** Deserializers after caught panics: a buffer object may have several copies. *)
From Verif Require Export DeserExact DeserPanic DeserFinish.
Open Scope nat_scope.

Section Insert.
Context {A B : Type} (eqa : A -> A -> bool) (eqb : B -> B -> bool)
  (eqa_spec : forall x y, reflect (x = y) (eqa x y)) (eqb_spec : forall x y, reflect (x = y) (eqb x y)).
Lemma bm_insert_in a b m x y : In (x, y) (bm_insert eqa eqb a b m) <-> (In (x, y) m /\ x <> a /\ y <> b) \/ (x = a /\ y = b).
Proof using eqa_spec eqb_spec.
  unfold bm_insert. rewrite in_app_iff, filter_In. unfold bm_touches. cbn [fst snd In].
  split.
  - intros [[H1 H2]|[H|[]]]; [left|right; injection H as <- <-; auto]. split; [exact H1|].
    destruct (eqa_spec a x); [discriminate|]. destruct (eqb_spec b y); [discriminate|]. split; congruence.
  - intros [[H1 [H2 H3]]|[-> ->]]; [left|right; left; reflexivity]. split; [exact H1|].
    destruct (eqa_spec a x); [congruence|]. destruct (eqb_spec b y); [congruence|]. reflexivity.
Qed.
Lemma bij_insert a b m : bij m -> bij (bm_insert eqa eqb a b m).
Proof using eqa_spec eqb_spec.
  intros Hb a1 b1 a2 b2 H1 H2. apply bm_insert_in in H1, H2.
  destruct H1 as [[H1 [N1 N1']]|[-> ->]], H2 as [[H2 [N2 N2']]|[-> ->]].
  - apply (Hb _ _ _ _ H1 H2).
  - split; congruence.
  - split; congruence.
  - tauto.
Qed.
End Insert.

(** [M]: the objects made, with the buffer object of each. *)
Record dinvx (fb : fb_baseline) (k : baseline_kind) (cs : list contract_inst) (d : deser) (M : list (index * nat))
    (s : rstate) (fs fc : index -> list index) : Prop := {
  dx_b : dbinv fb k cs (ds_b d) s fs fc;
  dx_obj : forall o, rs_obj s o <> None -> o = d_null_obj (ds_b d) \/ exists j, In (o, j) M;
  dx_made : forall o j, In (o, j) M ->
     o <> d_null_obj (ds_b d) /\ made_from fb cs s o j (fld d s o);
  dx_bij : bij (ds_objects d);
  dx_refs : refs_ok fb (ds_refs d);
  dx_st : forall n sh, In (n, sh) (ds_states d) -> In n (map fst (ds_refs d)) /\
     exists o i j, In (o, j) M /\ nth_error (buf_indices fb j) i = Some n /\
       is_bound (rs_bound s) tobj sh o i;
  dx_stbij : bij (ds_states d);
  dx_fun : forall o j j', In (o, j) M -> In (o, j') M -> j = j';
  dx_sub : incl (ds_objects d) M;
  dx_cov : forall o j, In (o, j) M -> exists o', In (o', j) (ds_objects d);
  dx_dup : forall o o' j, In (o, j) M -> In (o', j) M -> o = o' \/ forall i oi, buf_field fb j i <> Some (FObjectHandle oi)
}.

Lemma dinv_dinvx fb k cs d s fs fc : dinv fb k cs d s fs fc -> dinvx fb k cs d (ds_objects d) s fs fc.
Proof.
  intros H. pose proof (di_bij _ _ _ _ _ _ _ H) as Hb. destruct H. constructor; auto.
  - intros o j j' H1 H2. apply (Hb _ _ _ _ H1 H2). reflexivity.
  - apply incl_refl.
  - eauto.
  - intros o o' j H1 H2. left. apply (Hb _ _ _ _ H1 H2). reflexivity.
Qed.

Lemma dinvx_more_refs fb k cs d M s fs fc refs' :
  dinvx fb k cs d M s fs fc -> refs_ok fb refs' -> incl (ds_refs d) refs' ->
  dinvx fb k cs (mkDeser (ds_b d) (ds_states d) refs' (ds_objects d)) M s fs fc.
Proof.
  intros [H1 H2 H3 H4 H5 H6 H7 H8 H9 H10 H11] Hok Hincl. constructor; cbn [ds_b ds_states ds_refs ds_objects]; auto.
  - intros o j Hin. destruct (H3 _ _ Hin) as [Hn [c [ro [idx [A1 [A2 [A3 [A4 [A5 [A6 [A7 [A8 [A9 A10]]]]]]]]]]]]].
    split; auto. exists c, ro, idx. repeat (split; [assumption|]).
    intros i v Hv. destruct (A10 _ _ Hv) as [n [fv [B1 [B2 B3]]]]. exists n, fv. split; auto. split; auto.
    destruct B3 as [B3|[oi [sh [B3 [B4 [B5 B6]]]]]]; [left; auto|right]. exists oi, sh. cbn. auto.
  - intros n sh Hin. destruct (H6 _ _ Hin) as [Ha Hb]. split; auto.
    apply in_map_iff in Ha. destruct Ha as [p [E Hp]]. apply in_map_iff. exists p. auto.
Qed.

Lemma deserialize_obj_any fb k cs d M s fs fc c j o r d' :
  dinvx fb k cs d M s fs fc -> In c cs -> validate_obj (ds_b d) c j = Ok o ->
  deserialize_obj d c j o = (r, d') ->
  d_contracts (ds_b d') = d_contracts (ds_b d) /\
  exists M' s' fs' fc', dinvx fb k cs d' M' s' fs' fc' /\
    (M' = M \/ exists oh, M' = M ++ [(oh, j)]).
Proof.
  intros Hd Hc Hv. pose proof (dx_b _ _ _ _ _ _ _ _ Hd) as Hb.
  destruct (validate_obj_ok _ _ _ _ _ _ _ _ _ _ Hb Hc Hv) as [Hbo [[cidx [Hfind Hbc]] [Hlen Hty]]].
  pose proof (obj_idxs_buf _ _ _ Hbo) as Hidx.
  assert (Hlen' : length (obj_idxs o) = length (ct_states (ci_ty c))).
  { rewrite Hidx, map_length in Hlen. auto. }
  unfold deserialize_obj. fold (obj_idxs o).
  assert (Hsane : (match fo_states o with Some l => negb (Nat.eqb (length l) (length (ct_states (ci_ty c)))) | None => false end) = false).
  { unfold obj_idxs in Hlen'. destruct (fo_states o); auto. rewrite Hlen', Nat.eqb_refl. reflexivity. }
  rewrite Hsane.
  set (l := combine (state_ids (ci_ty c) (ci_handle c)) (obj_idxs o)).
  destruct (build_props (ds_b d) (ds_refs d) l) as [rb refs] eqn:Eb.
  destruct (build_props_spec fb (ds_b d) (db_fb _ _ _ _ _ _ _ Hb) _ _ _ _ (dx_refs _ _ _ _ _ _ _ _ Hd) Eb) as [Hrok [Hincl Hbuilt]].
  pose proof (dinvx_more_refs _ _ _ _ _ _ _ _ _ Hd Hrok Hincl) as Hd1.
  destruct rb as [[ps ns]|e|].
  2:{ intros E; injection E as <- <-. split; auto. exists M, s, fs, fc. auto. }
  2:{ intros E; injection E as <- <-. split; auto. exists M, s, fs, fc. auto. }
  specialize (Hbuilt _ _ eq_refl).
  destruct (object_create (d_base (ds_b d)) c ps []) as [ro' b1] eqn:Ec.
  assert (Ec' : object_create (d_base (ds_b d)) (mkCinst (ci_ty c) (ci_handle c)) ps [] = (ro', b1)).
  { destruct c; auto. }
  destruct (rec_create _ _ _ _ _ _ _ _ _ _ (db_rel _ _ _ _ _ _ _ Hb) (rs_con_of _ _ _ _ _ _ _ _ Hb Hc) (Forall_nil _) Ec')
    as [[Hpt [Hct [oh [-> [Hno [Hk [fs1 [fc1 Hr1]]]]]]]]|[_ [-> [e ->]]]].
  2:{ intros E; injection E as <- <-. cbn [ds_b]. split; auto.
      exists M, s, fs, fc. split; auto. rewrite with_base_same. auto. }
  set (s1 := rnext s (RCreate (ci_ty c) (ci_handle c) ps []) (Ok (YHandle oh))) in *.
  pose proof (create_dbinv _ _ _ _ _ _ _ _ _ _ _ _ _ Hb Hc Hno Hk Hr1) as Hb1. fold s1 in Hb1.
  assert (Hlive : live_obj s1 oh = Some (mkRobj (ci_handle c) ps [] timewarp_default true)) by apply live_new.
  (* positions of l *)
  assert (Hl : forall i id n, nth_error l i = Some (id, n) -> exists t, nth_error (ct_states (ci_ty c)) i = Some t /\
              id = mkPid t i (ci_handle c) /\ nth_error (buf_indices fb j) i = Some (N.to_nat n)).
  { intros i id n Hi. unfold l in Hi. rewrite nth_error_combine, state_ids_nth in Hi.
    destruct (nth_error (ct_states (ci_ty c)) i) as [t|]; cbn in Hi; [|discriminate].
    destruct (nth_error (obj_idxs o) i) as [n'|] eqn:En; [|discriminate]. injection Hi as <- <-.
    exists t. split; auto. split; auto. rewrite Hidx, nth_error_map, En. reflexivity. }
  assert (Hns : forall id n, In (id, n) ns -> exists i, id = mkPid tobj i (ci_handle c) /\
     nth_error (ct_states (ci_ty c)) i = Some tobj /\ nth_error (buf_indices fb j) i = Some n).
  { intros id n Hin. destruct (pb_ns _ _ _ _ _ _ _ Hbuilt _ _ Hin) as [[n' [Hin' <-]] [Ht _]].
    apply In_nth_error in Hin'. destruct Hin' as [i Hi]. destruct (Hl _ _ _ Hi) as [t [H1 [H2 H3]]].
    subst id. cbn in Ht. subst t. exists i. auto. }
  assert (Hpres : forall o', rs_obj s o' <> None -> rs_obj s1 o' = rs_obj s o' /\ o' <> oh).
  { intros o' Ho'. assert (o' <> oh) by congruence. split; auto. cbn. apply upd_neq. auto. }
  destruct (track_nulls_spec b1 (ci_ty c) (ci_handle c) oh (mkRobj (ci_handle c) ps [] timewarp_default true) fs1 fc1 ns s1
      (ds_states d) Hr1) as
    [st' [s2 [Et [Hr2 [Hsb [Hbij2 [Hf5 Hf6]]]]]]]; auto.
  { apply (rs_con_of _ _ _ _ _ _ _ _ Hb Hc). }
  { intros id n Hin. destruct (Hns _ _ Hin) as [i [H1 [H2 _]]]. eauto. }
  { apply (pb_nodup_id _ _ _ _ _ _ _ Hbuilt). apply NoDup_map_fst_combine, state_ids_nodup. }
  { apply (pb_nodup _ _ _ _ _ _ _ Hbuilt). }
  { intros n sh Hin. destruct (dx_st _ _ _ _ _ _ _ _ Hd _ _ Hin) as [Hkey [o' [i [j' [Ho' [_ Hbd]]]]]]. split.
    - intros Hin2. apply in_map_iff in Hin2. destruct Hin2 as [[id n'] [E Hin2]]. cbn in E. subst n'.
      destruct (pb_ns _ _ _ _ _ _ _ Hbuilt _ _ Hin2) as [_ [_ [_ Hnk]]]. auto.
    - exists o', i. split; auto. intros id _ E. injection E as -> _.
      destruct (rr_bound _ _ _ _ (db_rel _ _ _ _ _ _ _ Hb) _ _ _ _ Hbd) as [ro2 [v2 [Ho2 _]]]. congruence. }
  { apply (dx_stbij _ _ _ _ _ _ _ _ Hd). }
  rewrite Et.
  intros E.
  assert (Ed : d' = mkDeser (with_base (ds_b d) b1) (ds_states d ++ st') refs (bm_insert index_eqb Nat.eqb oh j (ds_objects d))).
  { destruct (bm_fresh index_eqb Nat.eqb oh j (ds_objects d)); injection E as <- <-; reflexivity. }
  clear E. subst d'. cbn [ds_b d_contracts with_base]. split; auto.
  exists (M ++ [(oh, j)]), s2, fs1, fc1. split; [|eauto].
  assert (Hnew : forall j', ~ In (oh, j') M).
  { intros j' Hin. destruct (dx_made _ _ _ _ _ _ _ _ Hd _ _ Hin) as [_ [c' [ro [idx [_ [A2 _]]]]]]. congruence. }
  pose proof (sb_obj _ _ Hsb) as Eobj.
  constructor; cbn [ds_b ds_states ds_refs ds_objects].
  - eapply same_but_bound_dbinv; eauto.
  - intros o'. rewrite Eobj. cbn [with_base d_null_obj]. destruct (index_eq_dec oh o') as [<-|Hne].
    + intros _. right. exists j. apply in_or_app. right; left; auto.
    + cbn. rewrite upd_neq by auto. intros Ho'. destruct (dx_obj _ _ _ _ _ _ _ _ Hd _ Ho') as [H|[j' H]]; auto.
      right. exists j'. apply in_or_app. auto.
  - cbn [with_base d_null_obj]. intros o' j' Hin. apply in_app_or in Hin. destruct Hin as [Hin|[Hin|[]]].
    + destruct (dx_made _ _ _ _ _ _ _ _ Hd1 _ _ Hin) as [Hn [c' [ro [idx [A1 [A2 [A3 [A4 [A5 [A6 [A7 [A8 [A9 A10]]]]]]]]]]]]].
      cbn [ds_b ds_objects] in *. split; auto. exists c', ro, idx. rewrite Eobj.
      destruct (Hpres o') as [Ep _]; [congruence|]. rewrite Ep.
      repeat (split; [assumption|]).
      intros i v Hiv. destruct (A10 _ _ Hiv) as [n [fv [B1 [B2 B3]]]]. exists n, fv. split; auto. split; auto.
      destruct B3 as [B3|[oi [sh [B3 [B4 [B5 [B6 B7]]]]]]]; [left; auto|right]. exists oi, sh.
      cbn [ds_b ds_states ds_refs with_base d_contracts] in *. split; auto. split; auto. split; auto.
      split; [apply in_or_app; auto|]. apply (sb_bound _ _ Hsb). auto.
    + injection Hin as <- <-. split.
      { intros ->. rewrite (db_nobj _ _ _ _ _ _ _ Hb) in Hno. discriminate. }
      exists c, (mkRobj (ci_handle c) ps [] timewarp_default true), cidx.
      assert (Eo : rs_obj s2 oh = Some (mkRobj (ci_handle c) ps [] timewarp_default true)).
      { rewrite Eobj. cbn. apply upd_eq. }
      cbn [ro_live ro_contract ro_warp ro_chans ro_vals].
      repeat (split; [solve [auto]|]).
      assert (Hpl : length ps = length (ct_states (ci_ty c))) by (rewrite <- Hpt, map_length; auto).
      split; [congruence|].
      intros i v Hiv.
      assert (Hi : i < length (ct_states (ci_ty c))) by (apply nth_error_lt in Hiv; lia).
      destruct (nth_error l i) as [[id n]|] eqn:Eli.
      2:{ exfalso. apply nth_error_None in Eli. unfold l in Eli. rewrite combine_length in Eli.
          assert (length (state_ids (ci_ty c) (ci_handle c)) = length (ct_states (ci_ty c))).
          { unfold state_ids. rewrite iter_collect_ids, ids_from_length. lia. }
          lia. }
      destruct (Hl _ _ _ Eli) as [t [H1 [H2 H3]]].
      destruct (pb_val _ _ _ _ _ _ _ Hbuilt _ _ _ Eli) as [fv [v' [G1 [G2 G3]]]].
      rewrite Hiv in G2. injection G2 as <-.
      exists (N.to_nat n), fv. split; auto. split; auto.
      destruct G3 as [G3|[oi [G3 [G4 [G5 G6]]]]]; [left; auto|right].
      destruct (Hf5 _ _ G5) as [sh [K1 K2]]. exists oi, sh.
      cbn [ds_b ds_states ds_refs with_base d_contracts]. split; auto. split; [auto|]. split; auto.
      split; [apply in_or_app; auto|]. rewrite H2 in K2. exact K2.
  - apply (bij_insert _ _ index_eqb_spec Nat.eqb_spec). apply (dx_bij _ _ _ _ _ _ _ _ Hd).
  - auto.
  - intros n sh Hin. apply in_app_or in Hin. destruct Hin as [Hin|Hin].
    + destruct (dx_st _ _ _ _ _ _ _ _ Hd1 _ _ Hin) as [Hkey [o' [i [j' [Ho' [Hx Hbd]]]]]].
      cbn [ds_refs ds_objects] in *. split; auto.
      exists o', i, j'. split; [apply in_or_app; auto|]. split; auto. apply (sb_bound _ _ Hsb). auto.
    + destruct (Hf6 _ _ Hin) as [id [K1 K2]]. destruct (Hns _ _ K1) as [i [-> [L1 L2]]].
      split; [apply (pb_ns _ _ _ _ _ _ _ Hbuilt _ _ K1)|].
      exists oh, i, j. split; [apply in_or_app; right; left; auto|]. split; auto.
  - auto.
  - intros o' j1 j2 H1 H2. apply in_app_or in H1, H2. cbn in H1, H2.
    destruct H1 as [H1|[H1|[]]], H2 as [H2|[H2|[]]].
    + apply (dx_fun _ _ _ _ _ _ _ _ Hd _ _ _ H1 H2).
    + injection H2 as <- <-. destruct (Hnew _ H1).
    + injection H1 as <- <-. destruct (Hnew _ H2).
    + congruence.
  - intros [o' j'] Hin. apply (bm_insert_in _ _ index_eqb_spec Nat.eqb_spec) in Hin. apply in_or_app.
    destruct Hin as [[Hin _]|[-> ->]]; [left; apply (dx_sub _ _ _ _ _ _ _ _ Hd); auto|right; left; auto].
  - intros o' j' Hin. destruct (Nat.eq_dec j' j) as [->|Hne].
    + exists oh. apply (bm_insert_in _ _ index_eqb_spec Nat.eqb_spec). auto.
    + apply in_app_or in Hin. destruct Hin as [Hin|[Hin|[]]]; [|congruence].
      destruct (dx_cov _ _ _ _ _ _ _ _ Hd _ _ Hin) as [o2 Ho2]. exists o2.
      apply (bm_insert_in _ _ index_eqb_spec Nat.eqb_spec). left. split; auto. split; auto.
      intros ->. apply (Hnew j'). apply (dx_sub _ _ _ _ _ _ _ _ Hd). exact Ho2.
  - assert (Hdup : forall o', In (o', j) M -> forall i oi, buf_field fb j i <> Some (FObjectHandle oi)).
    { intros o' Hin i oi Hf. unfold buf_field in Hf. destruct (nth_error (buf_indices fb j) i) as [n|] eqn:Ei; [|discriminate].
      destruct (dx_made _ _ _ _ _ _ _ _ Hd _ _ Hin) as [_ [c' [ro [idx [_ [_ [_ [_ [_ [_ [_ [_ [A9 A10]]]]]]]]]]]]].
      destruct (nth_error (ro_vals ro) i) as [v|] eqn:Ev.
      2:{ apply nth_error_None in Ev. apply nth_error_lt in Ei. lia. }
      destruct (A10 _ _ Ev) as [n' [fv [B1 [B2 B3]]]]. assert (n' = n) by congruence. subst n'. rewrite Hf in B2. injection B2 as <-.
      destruct B3 as [B3|[oi' [sh [_ [_ [B5 _]]]]]]; [discriminate B3|].
      (* the same state was tracked again *)
      pose proof Ei as Ei'. rewrite Hidx, nth_error_map in Ei'. destruct (nth_error (obj_idxs o) i) as [n0|] eqn:En; [|discriminate Ei'].
      injection Ei' as <-. pose proof (nth_error_lt _ _ _ En) as Hlt. rewrite Hlen' in Hlt.
      destruct (nth_error (ct_states (ci_ty c)) i) as [t|] eqn:Ety. 2:{ apply nth_error_None in Ety. lia. }
      assert (Hli : nth_error l i = Some (mkPid t i (ci_handle c), n0)).
      { unfold l. rewrite nth_error_combine, state_ids_nth, Ety, En. reflexivity. }
      destruct (pb_val _ _ _ _ _ _ _ Hbuilt _ _ _ Hli) as [fv [v' [G1 [_ G3]]]]. rewrite Hf in G1. injection G1 as <-.
      destruct G3 as [G3|[oi2 [_ [_ [G5 _]]]]]; [discriminate G3|].
      destruct (pb_ns _ _ _ _ _ _ _ Hbuilt _ _ G5) as [_ [_ [_ Hnk]]]. apply Hnk. apply in_map_iff. exists (N.to_nat n0, oi'). auto. }
    intros o1 o2 j' H1 H2. apply in_app_or in H1, H2. cbn in H1, H2.
    destruct H1 as [H1|[H1|[]]], H2 as [H2|[H2|[]]].
    + apply (dx_dup _ _ _ _ _ _ _ _ Hd _ _ _ H1 H2).
    + injection H2 as <- <-. right. eapply Hdup; eauto.
    + injection H1 as <- <-. right. eapply Hdup; eauto.
    + left. congruence.
Qed.


(** Several objects. *)
Lemma deserialize_each_any fb k cs c : forall l d M s fs fc r d',
  dinvx fb k cs d M s fs fc -> In c cs -> deserialize_each d c l = (r, d') ->
  exists M' s' fs' fc', dinvx fb k cs d' M' s' fs' fc' /\ d_contracts (ds_b d') = d_contracts (ds_b d) /\ incl M M' /\
    (forall o j, In (o, j) M' -> In (o, j) M \/ In j l).
Proof.
  induction l as [|j l IH]; intros d M s fs fc r d' Hd Hc E; cbn [deserialize_each] in E.
  - injection E as <- <-. exists M, s, fs, fc. split; [exact Hd|]. split; [reflexivity|]. split; [apply incl_refl|auto].
  - assert (H0 : exists M' s' fs' fc', dinvx fb k cs d M' s' fs' fc' /\ d_contracts (ds_b d) = d_contracts (ds_b d) /\ incl M M' /\
             (forall o j', In (o, j') M' -> In (o, j') M \/ In j' (j :: l))).
    { exists M, s, fs, fc. split; [exact Hd|]. split; [reflexivity|]. split; [apply incl_refl|auto]. }
    destruct (validate_obj (ds_b d) c j) as [o|e|] eqn:Ev; [|injection E as <- <-; exact H0|injection E as <- <-; exact H0].
    destruct (deserialize_obj d c j o) as [r1 d1] eqn:Ed.
    destruct (deserialize_obj_any _ _ _ _ _ _ _ _ _ _ _ _ _ Hd Hc Ev Ed) as [Hct [M1 [s1 [fs1 [fc1 [Hd1 HM1]]]]]].
    assert (Hi1 : incl M M1 /\ forall o j', In (o, j') M1 -> In (o, j') M \/ j' = j).
    { destruct HM1 as [->|[oh ->]]; [split; [apply incl_refl|auto]|]. split; [apply incl_appl, incl_refl|].
      intros o' j' Hin. apply in_app_or in Hin. destruct Hin as [Hin|[Hin|[]]]; [auto|]. right. congruence. }
    destruct Hi1 as [Hi1 Hi2].
    assert (H1 : exists M' s' fs' fc', dinvx fb k cs d1 M' s' fs' fc' /\ d_contracts (ds_b d1) = d_contracts (ds_b d) /\ incl M M' /\
             (forall o j', In (o, j') M' -> In (o, j') M \/ In j' (j :: l))).
    { exists M1, s1, fs1, fc1. split; [exact Hd1|]. split; [exact Hct|]. split; [exact Hi1|].
      intros o' j' Hin. destruct (Hi2 _ _ Hin) as [H|H]; [auto|right; left; auto]. }
    destruct r1 as [[]|e|]; [|injection E as <- <-; exact H1|injection E as <- <-; exact H1].
    destruct (IH _ _ _ _ _ _ _ Hd1 Hc E) as [M' [s' [fs' [fc' [Hd' [Hct' [Hi' Hj']]]]]]].
    exists M', s', fs', fc'. split; [exact Hd'|]. split; [congruence|]. split; [eapply incl_tran; eauto|].
    intros o' j' Hin. destruct (Hj' _ _ Hin) as [H|H]; [destruct (Hi2 _ _ H) as [H2|H2]; [auto|right; left; auto]|right; right; auto].
Qed.
Lemma deserialize_objects_any fb k cs d M s fs fc c r d' :
  dinvx fb k cs d M s fs fc -> In c cs -> deserialize_objects d c = (r, d') ->
  exists M' s' fs' fc', dinvx fb k cs d' M' s' fs' fc' /\ incl M M' /\
    (forall o j, In (o, j) M' -> In (o, j) M \/
       exists idx, find_serialized_contract fb (ci_ty c) = Ok idx /\ buf_contract fb j = Some idx).
Proof.
  intros Hd Hc E. pose proof (dx_b _ _ _ _ _ _ _ _ Hd) as Hb. unfold deserialize_objects in E.
  assert (H0 : d' = d -> exists M' s' fs' fc', dinvx fb k cs d' M' s' fs' fc' /\ incl M M' /\
    (forall o j, In (o, j) M' -> In (o, j) M \/
       exists idx, find_serialized_contract fb (ci_ty c) = Ok idx /\ buf_contract fb j = Some idx)).
  { intros ->. exists M, s, fs, fc. split; [exact Hd|]. split; [apply incl_refl|auto]. }
  destruct (bm_right index_eqb (ci_handle c) (d_contracts (ds_b d))) as [cidx|] eqn:Eb; [|injection E as <- <-; auto].
  destruct (fb_objects (d_fb (ds_b d))) as [objs|] eqn:Eo; [|injection E as <- <-; auto].
  destruct (deserialize_each_any _ _ _ _ _ _ _ _ _ _ _ _ Hd Hc E) as [M' [s' [fs' [fc' [H1 [_ [H2 H3]]]]]]].
  exists M', s', fs', fc'. split; [exact H1|]. split; [exact H2|].
  intros o j Hin. destruct (H3 _ _ Hin) as [H|H]; [auto|right]. exists cidx.
  split.
  - apply (bm_right_in index_eqb index_eqb_spec) in Eb. apply (db_reg _ _ _ _ _ _ _ Hb) in Eb.
    destruct Eb as [c' [G1 [G2 G3]]]. assert (c' = c); [|subst c'; exact G3].
    assert (K1 := rs_con_of _ _ _ _ _ _ _ _ Hb G1). assert (K2 := rs_con_of _ _ _ _ _ _ _ _ Hb Hc).
    destruct c' as [C' h'], c as [C h]. cbn in *. subst h'. congruence.
  - apply objects_with_idx in H. destruct H as [_ [ob [cn [G1 [G2 G3]]]]]. rewrite Nat.sub_0_r in G1.
    unfold buf_contract, buf_object. rewrite <- (db_fb _ _ _ _ _ _ _ Hb), Eo. cbn. rewrite G1. cbn. rewrite G2. cbn. congruence.
Qed.

(** What [finish] can return. *)
Lemma finish_any fb k cs d M s fs fc r :
  dinvx fb k cs d M s fs fc -> finishes d r ->
  match r with
  | Panic => False
  | Err e => e = EDanglingObjectRef /\
      exists o j i oi, In (o, j) M /\ buf_field fb j i = Some (FObjectHandle oi) /\
        forall o', ~ In (o', N.to_nat oi) (ds_objects d)
  | Ok b' =>
      (exists s' fs' fc', rrel b' s' fs' fc' /\ b_kind b' = k /\
        (forall h C, rs_con s' h = Some C <-> In (mkCinst C h) cs) /\
        (forall o, live_obj s' o <> None <-> exists j, In (o, j) M) /\
        (forall c o, In c cs -> In o (rs_mem s' (ci_handle c)) -> exists j, In (o, j) M) /\
        (forall o j, In (o, j) M ->
           made_from fb cs s' o j (fun _ _ => stands_for (fun j' o' => In (o', j') (ds_objects d))
             (fun idx h => In (idx, h) (d_contracts (ds_b d)))))) /\
      (forall o j i oi, In (o, j) M -> buf_field fb j i = Some (FObjectHandle oi) ->
         exists o', In (o', N.to_nat oi) (ds_objects d))
  end.
Proof.
  intros Hd [ord [ordn [Hp [Hpn E]]]].
  pose proof (dx_b _ _ _ _ _ _ _ _ Hd) as Hb. pose proof (db_rel _ _ _ _ _ _ _ Hb) as Hr.
  unfold deser_finish in E.
  destruct (restore_refs (ds_refs d) (ds_objects d) (d_base (ds_b d)) ord) as [r1 b1] eqn:Er.
  assert (Hin : forall n sh, In (n, sh) ord <-> In (n, sh) (ds_states d)).
  { intros n sh. split; apply Permutation_in; auto using Permutation_sym. }
  assert (Hbd : forall n sh, In (n, sh) ord -> exists o i, is_bound (rs_bound s) tobj sh o i).
  { intros n sh H. apply Hin in H. destruct (dx_st _ _ _ _ _ _ _ _ Hd _ _ H) as [_ [o [i [j [_ [_ H3]]]]]]. eauto. }
  pose proof (restore_refs_spec _ _ _ _ _ _ _ _ _ Hr Hbd Er) as Hspec.
  destruct r1 as [[]|e|].
  2:{ destruct Hspec as [-> [n [sh [oi [H1 [H2 H3]]]]]]. subst r. split; auto.
      apply Hin in H1. destruct (dx_st _ _ _ _ _ _ _ _ Hd _ _ H1) as [_ [o [i [j [Ho [Hi _]]]]]].
      apply ref_of_in in H2. destruct (dx_refs _ _ _ _ _ _ _ _ Hd _ _ H2) as [oi' [Hbs ->]].
      exists o, j, i, oi'. split; auto. split.
      - unfold buf_field. rewrite Hi. auto.
      - exact (proj1 (bm_right_none Nat.eqb Nat.eqb_spec (ds_objects d) (N.to_nat oi')) H3). }
  2:{ destruct Hspec as [n [sh [H1 H2]]]. apply Hin in H1.
      destruct (dx_st _ _ _ _ _ _ _ _ Hd _ _ H1) as [Hkey _]. exfalso. eapply ref_of_key; eauto. }
  destruct Hspec as [s1 [fs1 [fc1 [Hr1 [Hk1 [Hc1 [Hm1 Ho1]]]]]]].
  destruct (unregister_contract b1 NullContract (ci_handle (d_null (ds_b d))) ordn) as [r2 b2] eqn:Eu.
  set (nh := ci_handle (d_null (ds_b d))) in *.
  assert (Hcn : rs_con s nh = Some NullContract) by (apply (db_con _ _ _ _ _ _ _ Hb); auto).
  destruct (rec_unregister _ _ _ _ NullContract nh ordn r2 b2 Hr1) as [-> [Hk2 [fs2 [fc2 Hr2]]]]; auto.
  { congruence. }
  { rewrite Hm1. pose proof (rr_con _ _ _ _ Hr nh) as H. rewrite Hcn in H. destruct H as [cd [Hg [_ Hm]]].
    rewrite <- Hm. apply Hpn. exact Hg. }
  { rewrite Hm1. unfold nh. rewrite (db_nmem _ _ _ _ _ _ _ Hb). intros o [<-|[]].
    specialize (Ho1 (d_null_obj (ds_b d))). rewrite (db_nobj _ _ _ _ _ _ _ Hb) in Ho1. unfold live_obj.
    destruct (rs_obj s1 (d_null_obj (ds_b d))); cbn in Ho1; [|tauto]. destruct Ho1 as [_ [_ [_ [H _]]]]. rewrite H. discriminate. }
  subst r. cbn [rnext] in Hr2.
  (* the object references of every made object are tracked *)
  assert (Hres : forall o j i n oi, In (o, j) M -> nth_error (buf_indices fb j) i = Some n ->
            buf_state fb n = Some (FObjectHandle oi) ->
            exists sh, In (n, sh) ord /\ is_bound (rs_bound s) tobj sh o i /\ ref_of (ds_refs d) n = Some (N.to_nat oi)).
  { intros o j i n oi Ho Hi Hbs.
    destruct (dx_made _ _ _ _ _ _ _ _ Hd _ _ Ho) as [_ [c [ro [idx [A1 [A2 [A3 [A4 [A5 [A6 [A7 [A8 [A9 A10]]]]]]]]]]]]].
    destruct (nth_error (ro_vals ro) i) as [v|] eqn:Ev.
    2:{ apply nth_error_None in Ev. apply nth_error_lt in Hi. lia. }
    destruct (A10 _ _ Ev) as [n' [fv [B1 [B2 B3]]]].
    assert (n' = n) by congruence. subst n'. rewrite Hbs in B2. injection B2 as <-.
    destruct B3 as [B3|[oi' [sh [B3 [B4 [B5 [B6 B7]]]]]]]; [discriminate|].
    cbn in B3. injection B3 as <-. exists sh. split; [apply Hin; auto|]. split; auto.
    eapply ref_of_refs; eauto. apply (dx_refs _ _ _ _ _ _ _ _ Hd). }
  assert (Hvals : forall o j, In (o, j) M -> made_from fb cs s1 o j
     (fun _ _ => stands_for (fun j' o' => In (o', j') (ds_objects d)) (fun idx h => In (idx, h) (d_contracts (ds_b d))))).
  { intros o j Ho.
    destruct (dx_made _ _ _ _ _ _ _ _ Hd _ _ Ho) as [_ [c [ro [idx [A1 [A2 [A3 [A4 [A5 [A6 [A7 [A8 [A9 A10]]]]]]]]]]]]].
    specialize (Ho1 o). rewrite A2 in Ho1. destruct (rs_obj s1 o) as [ro1|] eqn:Ero1; cbn in Ho1; [|tauto].
    destruct Ho1 as [P1 [P2 [P3 [P4 [P5 P6]]]]].
    exists c, ro1, idx. rewrite P1, P2, P3, P4, P5. repeat (split; [assumption|]).
    intros i v1 Hv1. destruct (nth_error (ro_vals ro) i) as [v|] eqn:Ev.
    2:{ apply nth_error_None in Ev. apply nth_error_lt in Hv1. lia. }
    destruct (A10 _ _ Ev) as [n [fv [B1 [B2 B3]]]]. exists n, fv. split; auto. split; auto.
    destruct (P6 _ _ Ev) as [v1' [Hv1' HR]]. rewrite Hv1 in Hv1'. injection Hv1' as <-.
    destruct B3 as [B3|[oi [sh [B3 [B4 [B5 [B6 B7]]]]]]].
    - (* a plain value is not touched *)
      destruct HR as [[n' [sh [oi [oh [R1 [R2 [R3 [R4 R5]]]]]]]]|[_ ->]].
      + exfalso. apply Hin in R1.
        destruct (dx_st _ _ _ _ _ _ _ _ Hd _ _ R1) as [_ [o' [i' [j' [S1 [S2 S3]]]]]].
        assert (Eoi : (o', i') = (o, i)).
        { pose proof (rec_lookup _ _ _ _ _ _ _ _ Hr S3) as L1. pose proof (rec_lookup _ _ _ _ _ _ _ _ Hr R2) as L2. congruence. }
        injection Eoi as -> ->.
        assert (j' = j) by exact (dx_fun _ _ _ _ _ _ _ _ Hd _ _ _ S1 Ho). subst j'.
        assert (n' = n) by congruence. subst n'.
        apply ref_of_in in R3. destruct (dx_refs _ _ _ _ _ _ _ _ Hd _ _ R3) as [jj [Hbs ->]].
        rewrite Hbs in B2. injection B2 as <-. discriminate.
      + eapply decode_stands; eauto. intros idx' h' Hbm. eapply (bm_left_in Nat.eqb Nat.eqb_spec); eauto.
    - (* a reference is restored *)
      destruct (decode_ref _ _ _ B3) as [jj [-> ->]].
      destruct HR as [[n' [sh' [oi [oh [R1 [R2 [R3 [R4 R5]]]]]]]]|[Hno _]].
      2:{ exfalso. apply Hno. exists n, sh. split; [apply Hin; auto|auto]. }
      apply Hin in R1.
      destruct (dx_st _ _ _ _ _ _ _ _ Hd _ _ R1) as [_ [o' [i' [j' [S1 [S2 S3]]]]]].
      assert (Eoi : (o', i') = (o, i)).
      { pose proof (rec_lookup _ _ _ _ _ _ _ _ Hr S3) as L1. pose proof (rec_lookup _ _ _ _ _ _ _ _ Hr R2) as L2. congruence. }
      injection Eoi as -> ->.
      assert (j' = j) by exact (dx_fun _ _ _ _ _ _ _ _ Hd _ _ _ S1 Ho). subst j'.
      assert (n' = n) by congruence. subst n'.
      rewrite (ref_of_refs _ _ _ _ (dx_refs _ _ _ _ _ _ _ _ Hd) B5) in R3. injection R3 as <-.
      subst v1. constructor. eapply (bm_right_in Nat.eqb Nat.eqb_spec); eauto. }
  assert (Hobj2 : forall o j, In (o, j) M -> o <> d_null_obj (ds_b d) /\
       forall ro, rs_obj s1 o = Some ro -> index_eqb nh (ro_contract ro) = false).
  { intros o j Ho. destruct (dx_made _ _ _ _ _ _ _ _ Hd _ _ Ho) as [Hn _]. split; auto.
    destruct (Hvals _ _ Ho) as [c [ro1 [idx [A1 [A2 [A3 [A4 _]]]]]]]. intros ro Hro. rewrite A2 in Hro. injection Hro as <-.
    destruct (index_eqb_spec nh (ro_contract ro1)); auto. exfalso. apply (db_nh _ _ _ _ _ _ _ Hb _ A1). fold nh. congruence. }
  split.
  - eexists _, fs2, fc2. split; [exact Hr2|]. split; [rewrite Hk2, Hk1; apply (db_kind _ _ _ _ _ _ _ Hb)|].
    cbn [rs_con rs_obj rs_mem]. split; [|split; [|split]].
    + intros h C. rewrite Hc1. destruct (index_eq_dec nh h) as [<-|Hne].
      * rewrite upd_eq. split; [discriminate|]. intros Hc. exfalso. apply (db_nh _ _ _ _ _ _ _ Hb _ Hc). reflexivity.
      * rewrite upd_neq by auto. rewrite (db_con _ _ _ _ _ _ _ Hb). split; [intros [[E _]|H]; [destruct Hne; symmetry; exact E|auto]|auto].
    + intros o. split.
      * unfold live_obj. cbn [rs_obj]. intros H. pose proof (Ho1 o) as Hoo.
        destruct (rs_obj s1 o) as [ro1|] eqn:Ero1; [|tauto].
        assert (Hso : rs_obj s o <> None) by (destruct (rs_obj s o); [discriminate|cbn in Hoo; tauto]).
        destruct (dx_obj _ _ _ _ _ _ _ _ Hd _ Hso) as [->|Hj]; auto. exfalso.
        rewrite (db_nobj _ _ _ _ _ _ _ Hb) in Hoo. cbn in Hoo. destruct Hoo as [Hrc _].
        fold nh in Hrc. rewrite Hrc, index_eqb_refl in H. cbn in H. auto.
      * intros [j Ho]. destruct (Hvals _ _ Ho) as [c [ro1 [idx [A1 [A2 [A3 _]]]]]].
        destruct (Hobj2 _ _ Ho) as [_ Hne]. unfold live_obj. cbn [rs_obj]. rewrite A2, (Hne _ A2), A3. discriminate.
    + intros c o Hc Hin'. rewrite Hm1 in Hin'. destruct (db_mem _ _ _ _ _ _ _ Hb _ _ Hc Hin') as [H1 H2].
      destruct (dx_obj _ _ _ _ _ _ _ _ Hd _ H1) as [H|H]; [congruence|auto].
    + intros o j Ho. destruct (Hvals _ _ Ho) as [c [ro1 [idx [A1 [A2 A3]]]]].
      destruct (Hobj2 _ _ Ho) as [_ Hne]. exists c, ro1, idx. split; auto. split; [|exact A3].
      cbn [rs_obj]. rewrite A2, (Hne _ A2). reflexivity.
  - intros o j i oi Ho Hbf. unfold buf_field in Hbf.
    destruct (nth_error (buf_indices fb j) i) as [n|] eqn:Ei; [|discriminate].
    destruct (Hvals _ _ Ho) as [c [ro1 [idx [A1 [A2 [A3 [A4 [A5 [A6 [A7 [A8 [A9 A10]]]]]]]]]]]].
    destruct (nth_error (ro_vals ro1) i) as [v|] eqn:Ev.
    2:{ apply nth_error_None in Ev. apply nth_error_lt in Ei. lia. }
    destruct (A10 _ _ Ev) as [n' [fv [B1 [B2 B3]]]]. assert (n' = n) by congruence. subst n'.
    rewrite Hbf in B2. injection B2 as <-. inversion B3; subst. eauto.
Qed.

(** ** Which objects are made *)
Lemma deserialize_obj_cases_any fb k cs d M s fs fc c j o r d' :
  dinvx fb k cs d M s fs fc -> In c cs -> validate_obj (ds_b d) c j = Ok o ->
  deserialize_obj d c j o = (r, d') ->
  match r with
  | Ok _ => True
  | Panic => (exists n, In n (buf_indices fb j) /\ buf_state fb n = Some (FFbString None)) \/
             exists oh, In (oh, j) (ds_objects d)
  | Err e =>
      ct_chans (ci_ty c) <> [] \/
      (exists i ci, buf_field fb j i = Some (FContractDataHandle ci) /\
         forall h, ~ In (N.to_nat ci, h) (d_contracts (ds_b d))) \/
      (exists i n oi, nth_error (buf_indices fb j) i = Some n /\ buf_state fb n = Some (FObjectHandle oi) /\
        (In n (map fst (ds_refs d)) \/ exists i', i' < i /\ nth_error (buf_indices fb j) i' = Some n))
  end.
Proof.
  intros Hd Hc Hv. pose proof (dx_b _ _ _ _ _ _ _ _ Hd) as Hb.
  destruct (validate_obj_ok _ _ _ _ _ _ _ _ _ _ Hb Hc Hv) as [Hbo [[cidx [Hfind Hbc]] [Hlen Hty]]].
  pose proof (obj_idxs_buf _ _ _ Hbo) as Hidx.
  assert (Hlen' : length (obj_idxs o) = length (ct_states (ci_ty c))).
  { rewrite Hidx, map_length in Hlen. auto. }
  unfold deserialize_obj. fold (obj_idxs o).
  assert (Hsane : (match fo_states o with Some l => negb (Nat.eqb (length l) (length (ct_states (ci_ty c)))) | None => false end) = false).
  { unfold obj_idxs in Hlen'. destruct (fo_states o); auto. rewrite Hlen', Nat.eqb_refl. reflexivity. }
  rewrite Hsane.
  set (l := combine (state_ids (ci_ty c) (ci_handle c)) (obj_idxs o)).
  assert (Hl : forall i id n, nth_error l i = Some (id, n) -> exists t, nth_error (ct_states (ci_ty c)) i = Some t /\
              id = mkPid t i (ci_handle c) /\ nth_error (buf_indices fb j) i = Some (N.to_nat n)).
  { intros i id n Hi. unfold l in Hi. rewrite nth_error_combine, state_ids_nth in Hi.
    destruct (nth_error (ct_states (ci_ty c)) i) as [t|]; cbn in Hi; [|discriminate].
    destruct (nth_error (obj_idxs o) i) as [n'|] eqn:En; [|discriminate]. injection Hi as <- <-.
    exists t. split; auto. split; auto. rewrite Hidx, nth_error_map, En. reflexivity. }
  assert (Htag : forall i id n, nth_error l i = Some (id, n) ->
     exists fv, buf_state fb (N.to_nat n) = Some fv /\ tag_eq_ptype (p_type fv) (pid_type id) = true).
  { intros i id n Hi. destruct (Hl _ _ _ Hi) as [t [H1 [-> H3]]]. destruct (Hty _ _ H1) as [n' [fv [K1 [K2 K3]]]].
    exists fv. assert (n' = N.to_nat n) by congruence. subst n'. auto. }
  pose proof (build_props_cases fb (ds_b d) (db_fb _ _ _ _ _ _ _ Hb) l (ds_refs d) Htag) as Hcases.
  destruct (build_props (ds_b d) (ds_refs d) l) as [rb refs] eqn:Eb. cbn [fst] in Hcases.
  destruct (build_props_spec fb (ds_b d) (db_fb _ _ _ _ _ _ _ Hb) _ _ _ _ (dx_refs _ _ _ _ _ _ _ _ Hd) Eb) as [Hrok [Hincl Hbuilt]].
  destruct rb as [[ps ns]|e|].
  2:{ intros E; injection E as <- <-. destruct Hcases as [i [id [n [H1 H2]]]].
      destruct (Hl _ _ _ H1) as [t [K1 [K2 K3]]].
      destruct H2 as [[ci [H2 [H3 _]]]|[_ [[oi H3] H4]]].
      - right. left. exists i, ci. split; [unfold buf_field; rewrite K3; auto|].
        exact (proj1 (bm_left_none Nat.eqb Nat.eqb_spec _ _) H3).
      - right. right. exists i, (N.to_nat n), oi. split; auto. split; auto.
        destruct H4 as [H4|[i' [id' [n' [L1 [L2 L3]]]]]]; [auto|right].
        destruct (Hl _ _ _ L2) as [t' [M1 [M2 M3]]]. exists i'. split; auto. congruence. }
  2:{ intros E; injection E as <- <-. destruct Hcases as [id [n [H1 H2]]]. left.
      apply In_nth_error in H1. destruct H1 as [i H1]. destruct (Hl _ _ _ H1) as [t [K1 [K2 K3]]].
      exists (N.to_nat n). split; auto. eapply nth_error_In; eauto. }
  specialize (Hbuilt _ _ eq_refl).
  assert (Hpt : map prop_type ps = ct_states (ci_ty c)).
  { assert (Hll : length l = length (ct_states (ci_ty c))).
    { unfold l. rewrite combine_length. unfold state_ids. rewrite iter_collect_ids, ids_from_length. lia. }
    pose proof (pb_len _ _ _ _ _ _ _ Hbuilt) as Hpl.
    apply nth_error_ext. intros i. rewrite nth_error_map.
    destruct (nth_error l i) as [[id n]|] eqn:Eli.
    - destruct (Hl _ _ _ Eli) as [t [H1 [H2 H3]]]. destruct (Htag _ _ _ Eli) as [fv [G1 G2]].
      destruct (pb_val _ _ _ _ _ _ _ Hbuilt _ _ _ Eli) as [fv' [v [K1 [K2 K3]]]].
      assert (fv' = fv) by congruence. subst fv'. rewrite K2, H1. cbn. f_equal. rewrite H2 in G2. cbn in G2.
      destruct K3 as [K3|[oi [K3 [K4 _]]]].
      + eapply decode_val_type; eauto.
      + rewrite K4. cbn. symmetry. eapply decode_ref_type; eauto.
    - apply nth_error_None in Eli. rewrite (proj2 (nth_error_None ps i)) by lia. rewrite (proj2 (nth_error_None _ i)); [auto|lia]. }
  destruct (object_create (d_base (ds_b d)) c ps []) as [ro' b1] eqn:Ec.
  assert (Ec' : object_create (d_base (ds_b d)) (mkCinst (ci_ty c) (ci_handle c)) ps [] = (ro', b1)).
  { destruct c; auto. }
  destruct (rec_create _ _ _ _ _ _ _ _ _ _ (db_rel _ _ _ _ _ _ _ Hb) (rs_con_of _ _ _ _ _ _ _ _ Hb Hc) (Forall_nil _) Ec')
    as [[_ [Hct [oh [-> [Hno [Hk [fs1 [fc1 Hr1]]]]]]]]|[Hne [-> [e ->]]]].
  2:{ intros E; injection E as <- <-. left. intros Hch. apply Hne. rewrite Hch. auto. }
  set (s1 := rnext s (RCreate (ci_ty c) (ci_handle c) ps []) (Ok (YHandle oh))) in *.
  assert (Hlive : live_obj s1 oh = Some (mkRobj (ci_handle c) ps [] timewarp_default true)) by apply live_new.
  destruct (track_nulls_spec b1 (ci_ty c) (ci_handle c) oh (mkRobj (ci_handle c) ps [] timewarp_default true) fs1 fc1 ns s1
      (ds_states d) Hr1) as [st' [s2 [Et [Hr2 [Hsb [Hbij2 [Hf5 Hf6]]]]]]]; auto.
  { apply (rs_con_of _ _ _ _ _ _ _ _ Hb Hc). }
  { intros id n Hin. destruct (pb_ns _ _ _ _ _ _ _ Hbuilt _ _ Hin) as [[n' [Hin' <-]] [Ht _]].
    apply In_nth_error in Hin'. destruct Hin' as [i Hi]. destruct (Hl _ _ _ Hi) as [t [H1 [H2 H3]]].
    subst id. cbn in Ht. subst t. exists i. auto. }
  { apply (pb_nodup_id _ _ _ _ _ _ _ Hbuilt). apply NoDup_map_fst_combine, state_ids_nodup. }
  { apply (pb_nodup _ _ _ _ _ _ _ Hbuilt). }
  { intros n sh Hin. destruct (dx_st _ _ _ _ _ _ _ _ Hd _ _ Hin) as [Hkey [o' [i [j' [Ho' [_ Hbd]]]]]]. split.
    - intros Hin2. apply in_map_iff in Hin2. destruct Hin2 as [[id n'] [E Hin2]]. cbn in E. subst n'.
      destruct (pb_ns _ _ _ _ _ _ _ Hbuilt _ _ Hin2) as [_ [_ [_ Hnk]]]. auto.
    - exists o', i. split; auto. intros id _ E. injection E as -> _.
      destruct (rr_bound _ _ _ _ (db_rel _ _ _ _ _ _ _ Hb) _ _ _ _ Hbd) as [ro2 [v2 [Ho2 _]]]. congruence. }
  { apply (dx_stbij _ _ _ _ _ _ _ _ Hd). }
  rewrite Et.
  destruct (bm_fresh index_eqb Nat.eqb oh j (ds_objects d)) eqn:Efr; intros E; injection E as <- <-; auto.
  right. apply Bool.not_true_iff_false in Efr. rewrite (bm_fresh_true _ _ index_eqb_spec Nat.eqb_spec) in Efr.
  destruct (in_dec Nat.eq_dec j (map snd (ds_objects d))) as [Hin|Hnin].
  - apply in_map_iff in Hin. destruct Hin as [[oh' j'] [E Hin]]. cbn in E. subst j'. eauto.
  - exfalso. apply Efr. intros oh' j' Hin. split.
    + intros ->. destruct (dx_made _ _ _ _ _ _ _ _ Hd _ _ (dx_sub _ _ _ _ _ _ _ _ Hd _ Hin)) as [_ [c' [ro [idx [_ [A2 _]]]]]]. congruence.
    + intros ->. apply Hnin. apply in_map_iff. exists (oh', j). auto.
Qed.

Lemma deserialize_obj_ok_inv_any fb k cs d M s fs fc c j o d' :
  dinvx fb k cs d M s fs fc -> In c cs -> validate_obj (ds_b d) c j = Ok o ->
  deserialize_obj d c j o = (Ok tt, d') ->
  well_formed fb cs c j /\ map fst (ds_refs d') = map fst (ds_refs d) ++ ref_states fb j /\
  (NoDup (map fst (ds_refs d)) -> NoDup (map fst (ds_refs d'))).
Proof.
  intros Hd Hc Hv. pose proof (dx_b _ _ _ _ _ _ _ _ Hd) as Hb.
  destruct (validate_obj_ok _ _ _ _ _ _ _ _ _ _ Hb Hc Hv) as [Hbo [[cidx [Hfind Hbc]] [Hlen Hty]]].
  pose proof (obj_idxs_buf _ _ _ Hbo) as Hidx.
  assert (Hlen' : length (obj_idxs o) = length (ct_states (ci_ty c))).
  { rewrite Hidx, map_length in Hlen. auto. }
  unfold deserialize_obj. fold (obj_idxs o).
  destruct (match fo_states o with Some l => _ | None => _ end); [discriminate|].
  destruct (build_props (ds_b d) (ds_refs d) _) as [[[ps ns]|e|] refs] eqn:Eb; try discriminate.
  destruct (object_create (d_base (ds_b d)) c ps []) as [ro' b1] eqn:Ec.
  assert (Ec' : object_create (d_base (ds_b d)) (mkCinst (ci_ty c) (ci_handle c)) ps [] = (ro', b1)).
  { destruct c; auto. }
  destruct (rec_create _ _ _ _ _ _ _ _ _ _ (db_rel _ _ _ _ _ _ _ Hb) (rs_con_of _ _ _ _ _ _ _ _ Hb Hc) (Forall_nil _) Ec')
    as [[Hpt [Hct [oh [-> _]]]]|[_ [_ [e ->]]]]; [|discriminate].
  destruct (track_nulls b1 oh ns (ds_states d)) as [[u|e|] st]; try discriminate.
  destruct (bm_fresh index_eqb Nat.eqb oh j (ds_objects d)); [|discriminate].
  intros E; injection E as <-. cbn [ds_refs].
  destruct (build_props_ok_inv fb (ds_b d) (db_fb _ _ _ _ _ _ _ Hb) _ _ _ _ _ Eb) as [H1 [H2 [H3 H4]]].
  rewrite (refs_of_object _ _ _ _ Hbo Hlen') in H1. split; [|auto].
  assert (Hin : forall i n, nth_error (buf_indices fb j) i = Some n -> exists id n0,
    In (id, n0) (combine (state_ids (ci_ty c) (ci_handle c)) (obj_idxs o)) /\ n = N.to_nat n0).
  { intros i n Hn. rewrite Hidx, nth_error_map in Hn. destruct (nth_error (obj_idxs o) i) as [n0|] eqn:En; [|discriminate].
    injection Hn as <-. pose proof (nth_error_lt _ _ _ En) as Hlt. rewrite Hlen' in Hlt.
    destruct (nth_error (ct_states (ci_ty c)) i) as [t|] eqn:Et. 2:{ apply nth_error_None in Et. lia. }
    exists (mkPid t i (ci_handle c)), n0. split; auto. apply nth_error_In with i.
    rewrite nth_error_combine, state_ids_nth, Et, En. reflexivity. }
  split; [auto|]. split; [auto|]. split; [|split].
  - intros o' Ho' Hns Hno. assert (o' = o) by congruence. subst o'.
    unfold validate_obj in Hv. rewrite (db_fb _ _ _ _ _ _ _ Hb) in Hv. unfold buf_object in Hbo.
    destruct (fb_objects fb) as [objs|]; [|discriminate]. rewrite Hbo in Hv.
    destruct (bm_right index_eqb (ci_handle c) (d_contracts (ds_b d))); [|discriminate].
    destruct (fo_contract o); [|discriminate]. destruct (negb _); [discriminate|].
    destruct (negb _); [discriminate|]. destruct (fo_states o) as [l|]; [|congruence].
    rewrite Hno in Hv. discriminate.
  - intros i t Ht. destruct (Hty _ _ Ht) as [n [fv [G1 [G2 G3]]]]. exists fv.
    split; [unfold buf_field; rewrite G1; auto|]. split; auto. intros ->.
    destruct (Hin _ _ G1) as [id [n0 [K1 ->]]]. apply (H3 _ _ K1). auto.
  - intros i ci Hf. unfold buf_field in Hf. destruct (nth_error (buf_indices fb j) i) as [n|] eqn:En; [|discriminate].
    destruct (Hin _ _ En) as [id [n0 [K1 ->]]]. destruct (H4 _ _ _ K1 Hf) as [h Hh].
    apply (db_reg _ _ _ _ _ _ _ Hb) in Hh. destruct Hh as [c' [A1 [A2 A3]]]. eauto.
Qed.

Lemma one_object_exact_any fb k cs d M s fs fc c idx j :
  dinvx fb k cs d M s fs fc -> In c cs -> find_serialized_contract fb (ci_ty c) = Ok idx ->
  buf_contract fb j = Some idx -> (forall oh, ~ In (oh, j) (ds_objects d)) ->
  well_formed fb cs c j -> NoDup (ref_states fb j) ->
  (forall n, In n (ref_states fb j) -> ~ In n (map fst (ds_refs d))) ->
  exists o d', validate_obj (ds_b d) c j = Ok o /\ deserialize_obj d c j o = (Ok tt, d').
Proof.
  intros Hd Hc Hf Hj Hnm [W1 [W2 [W3 [W4 W5]]]] Hnd Hdis.
  pose proof (dx_b _ _ _ _ _ _ _ _ Hd) as Hb.
  assert (Hfld : forall n, In n (buf_indices fb j) -> exists i t fv,
     nth_error (buf_indices fb j) i = Some n /\ nth_error (ct_states (ci_ty c)) i = Some t /\
     buf_state fb n = Some fv /\ tag_eq_ptype (p_type fv) t = true /\ fv <> FFbString None).
  { intros n Hin. apply In_nth_error in Hin. destruct Hin as [i Hi].
    pose proof (nth_error_lt _ _ _ Hi) as Hlt. rewrite W2 in Hlt.
    destruct (nth_error (ct_states (ci_ty c)) i) as [t|] eqn:Et. 2:{ apply nth_error_None in Et. lia. }
    destruct (W4 _ _ Et) as [fv [F1 [F2 F3]]]. unfold buf_field in F1. rewrite Hi in F1. exists i, t, fv. auto. }
  pose proof (validate_obj_cases _ _ _ _ _ _ _ _ _ _ Hb Hc Hf Hj) as Hv.
  destruct (validate_obj (ds_b d) c j) as [o|e|] eqn:Ev.
  2:{ exfalso. destruct Hv as [Hv|[Hv|[i [n [t [fv [H1 [H2 [H3 H4]]]]]]]]]; auto.
      - (* no table of states *)
        destruct (buf_object fb j) as [o|] eqn:Eo; [|unfold buf_contract in Hj; rewrite Eo in Hj; discriminate].
        assert (Hns : fo_states o = None).
        { destruct (fo_states o) as [l|] eqn:Es; auto. exfalso. apply (W3 o); auto. congruence. }
        revert Ev. unfold validate_obj. rewrite (db_fb _ _ _ _ _ _ _ Hb).
        unfold buf_contract in Hj. rewrite Eo in Hj.
        unfold buf_indices in W2. rewrite Eo, Hns in W2. cbn in W2.
        unfold buf_object in Eo. destruct (fb_objects fb) as [objs|]; [|discriminate]. rewrite Eo.
        rewrite (find_contract_right _ _ _ _ _ _ _ _ _ Hb Hc Hf).
        destruct (fo_contract o) as [found|]; [|discriminate]. cbn in Hj. injection Hj as <-.
        rewrite Nat.eqb_refl. cbn [negb]. rewrite Hns, <- W2. discriminate.
      - destruct (W4 _ _ H3) as [fv' [F1 [F2 _]]]. unfold buf_field in F1. rewrite H1, H2 in F1. congruence. }
  2:{ exfalso. destruct Hv as [n [H1 H2]]. destruct (Hfld _ H1) as [i [t [fv [F1 [F2 [F3 [F4 F5]]]]]]].
      destruct H2 as [H2|[g H2]]; [congruence|]. rewrite F3 in H2. injection H2 as ->. destruct t as [p|p]; destruct p; discriminate. }
  destruct (deserialize_obj d c j o) as [r d'] eqn:Ed. exists o, d'. split; auto.
  pose proof (deserialize_obj_cases_any _ _ _ _ _ _ _ _ _ _ _ _ _ Hd Hc Ev Ed) as Hcase.
  destruct r as [[]|e|]; auto; exfalso.
  - destruct Hcase as [Hcase|[[i [ci [H1 H2]]]|[i [n [oi [H1 [H2 H3]]]]]]]; auto.
    + destruct (W5 _ _ H1) as [c' [K1 K2]]. apply (H2 (ci_handle c')). apply (db_reg _ _ _ _ _ _ _ Hb). eauto.
    + assert (Hr : is_ref fb n = true) by (apply is_ref_iff; eauto).
      assert (Hin : In n (ref_states fb j)) by (apply filter_In; split; auto; eapply nth_error_In; eauto).
      destruct H3 as [H3|[i' [L1 L2]]]; [apply (Hdis _ Hin H3)|].
      unfold ref_states in Hnd. rewrite nodup_filter_pos in Hnd. specialize (Hnd _ _ _ H1 L2 Hr). lia.
  - destruct Hcase as [[n [H1 H2]]|[oh H1]]; [|apply (Hnm _ H1)].
    destruct (Hfld _ H1) as [i [t [fv [F1 [F2 [F3 [F4 F5]]]]]]]. congruence.
Qed.

