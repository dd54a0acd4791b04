(** C26, C27, C34: what deserialization accepts and produces. *)
From Verif Require Import BaseProofs DeserTotal PropertiesTags.
Import Coq.Strings.String.StringSyntax.
Open Scope string_scope.
Open Scope list_scope.
Open Scope nat_scope.

(** ** Specification *)

(** A contract type names each of its fields once (the macro guarantees it: C29). *)
Definition layout_ok (C : contract_ty) : Prop := length (ct_state_names C) = length (ct_states C).

Definition kind_is (k : fbkind) (t : ptype) : Prop := exists p, kind_denotes k = Some p /\ t = TPrim p.
Definition tag_is (g : fbtag) (t : ptype) : Prop := exists p, tag_denotes g = Some p /\ t = TPrim p.

(** The serialized contract [fc] has the name, version, field names and field
    types of [C]. *)
Definition describes (C : contract_ty) (fc : fb_contract) : Prop :=
  exists types,
    fc = mkFbContract (Some (mkFbCid (Some (cid_name (ct_id C))) (cid_ver (ct_id C))))
                      (Some (mkFbCstates (Some (ct_state_names C)) (Some types))) /\
    Forall2 kind_is types (ct_states C).

(** The first serialized contract that describes [C] is number [n]. *)
Definition selected (fb : fb_baseline) (C : contract_ty) (n : nat) : Prop :=
  exists l fc, fb_contracts fb = Some l /\ nth_error l n = Some fc /\ describes C fc /\
    forall m fc', m < n -> nth_error l m = Some fc' -> ~ describes C fc'.

(** Buffer object [j] belongs to one of the contracts [cs]. *)
Definition belongs (fb : fb_baseline) (cs : list contract_inst) (j : nat) : Prop :=
  exists c idx, In c cs /\ selected fb (ci_ty c) idx /\ buf_contract fb j = Some idx.

(** The baseline [b'] is what the buffer [fb] says about the contracts [cs];
    [from j o]: object [o] of [b'] came from buffer object [j]. *)
Record conforms (fb : fb_baseline) (k : baseline_kind) (cs : list contract_inst) (b' : baseline)
    (from : nat -> index -> Prop) : Prop := {
  cf_kind : b_kind b' = k;
  cf_one_to_one : forall j o j' o', from j o -> from j' o' -> (j = j' <-> o = o');
  cf_contracts : forall h, con_at b' h <> None <-> exists c, In c cs /\ ci_handle c = h;
  cf_contract : forall c, In c cs -> exists cd,
      con_at b' (ci_handle c) = Some cd /\ cd_id cd = ct_id (ci_ty c) /\
      forall o, In o (cd_objects cd) <-> exists ob, obj_at b' o = Some ob /\ o_contract ob = ci_handle c;
  cf_objects : forall o, obj_at b' o <> None <-> exists j, from j o;
  cf_object : forall j o, from j o -> exists c idx ob,
      In c cs /\ selected fb (ci_ty c) idx /\ buf_contract fb j = Some idx /\
      obj_at b' o = Some ob /\ o_contract ob = ci_handle c /\ o_warp ob = timewarp_default /\
      o_channels ob = [] /\ length (buf_indices fb j) = length (ct_states (ci_ty c)) /\
      forall i t, nth_error (ct_states (ci_ty c)) i = Some t -> exists fv v,
        buf_field fb j i = Some fv /\ tag_is (p_type fv) t /\
        field_of b' c i o = Some v /\ prop_type v = t /\
        stands_for from
          (fun n h => exists c', In c' cs /\ ci_handle c' = h /\ selected fb (ci_ty c') n) fv v
}.

(** Buffer object [j] fits contract [c] among the registered contracts [cs]. *)
Definition fits (fb : fb_baseline) (cs : list contract_inst) (c : contract_inst) (j : nat) : Prop :=
  length (buf_indices fb j) = length (ct_states (ci_ty c)) /\
  (forall i t fv, nth_error (ct_states (ci_ty c)) i = Some t -> buf_field fb j i = Some fv ->
     tag_is (p_type fv) t) /\
  (forall i n, buf_field fb j i = Some (FContractDataHandle n) ->
     exists c', In c' cs /\ selected fb (ci_ty c') (N.to_nat n)) /\
  (forall i j' i' n oi, nth_error (buf_indices fb j) i = Some n -> nth_error (buf_indices fb j') i' = Some n ->
     buf_state fb n = Some (FObjectHandle oi) -> j = j' /\ i = i').

(** ** Proofs *)
Lemma zip_all_forall2 {A B} (f : A -> B -> bool) : forall l m,
  length l = length m -> zip_all f l m = true <-> Forall2 (fun a b => f a b = true) l m.
Proof.
  induction l as [|a l IH]; intros [|b m] Hl; cbn in Hl; try discriminate.
  - cbn. split; auto.
  - cbn. rewrite Bool.andb_true_iff, IH by lia. split.
    + intros [H1 H2]. constructor; auto.
    + intros H. inversion H; auto.
Qed.
Lemma forall2_eq {A} (l m : list A) : Forall2 eq l m <-> l = m.
Proof.
  split; [induction 1; congruence|]. intros <-. induction l; auto.
Qed.
Lemma Forall2_impl {A B} (P Q : A -> B -> Prop) l m :
  (forall a b, P a b -> Q a b) -> Forall2 P l m -> Forall2 Q l m.
Proof. induction 2; auto. Qed.
Lemma Forall2_length {A B} (P : A -> B -> Prop) l m : Forall2 P l m -> length l = length m.
Proof. induction 1; cbn; congruence. Qed.
Lemma forall2_iff {A B} (P Q : A -> B -> Prop) l m :
  (forall a b, P a b <-> Q a b) -> Forall2 P l m <-> Forall2 Q l m.
Proof. intros H. split; intros F; (eapply Forall2_impl; [|exact F]); intros a b; apply H. Qed.
Lemma forall2_swap {A B} (P : A -> B -> Prop) l m : Forall2 P l m <-> Forall2 (fun b a => P a b) m l.
Proof. split; induction 1; auto. Qed.

Lemma ver_eqb_eq a b : ver_eqb a b = true <-> a = b.
Proof.
  destruct a as [[a1 a2] a3], b as [[b1 b2] b3]. cbn. rewrite !Bool.andb_true_iff, !N.eqb_eq.
  split; [intros [[-> ->] ->]; auto|intros E; injection E; auto].
Qed.

Lemma contract_matches_iff C fc : layout_ok C -> contract_matches C fc = true <-> describes C fc.
Proof.
  intros HL. unfold contract_matches, describes.
  destruct fc as [[[[name|] ver]|] st]; cbn.
  2:{ split; [discriminate|]. intros [? [E _]]; discriminate. }
  2:{ split; [discriminate|]. intros [? [E _]]; discriminate. }
  destruct st as [[[names|] [types|]]|]; cbn;
    try (split; [rewrite Bool.andb_false_r; discriminate|]; intros [? [E _]]; discriminate).
  rewrite !Bool.andb_true_iff, string_eqb_eq, ver_eqb_eq, !Nat.eqb_eq. split.
  - intros [[-> ->] [[[H1 H2] H3] H4]]. exists types.
    rewrite zip_all_forall2 in H3 by auto. rewrite zip_all_forall2 in H4 by (unfold layout_ok in HL; congruence).
    assert (names = ct_state_names C).
    { symmetry. apply forall2_eq. eapply Forall2_impl; [|exact H3]. intros a b. apply string_eqb_eq. }
    subst names. split; auto. apply (proj1 (forall2_swap _ _ _)). eapply Forall2_impl; [|exact H4].
    intros t kd. apply C28_type_equals_kind_iff_same.
  - intros [types' [E HF]]. injection E as -> -> -> ->.
    pose proof (Forall2_length _ _ _ HF) as HFl. unfold layout_ok in HL.
    split; auto. rewrite !zip_all_forall2 by congruence. split; [split; [split; congruence|]|].
    + apply (forall2_iff (fun a b => string_eqb a b = true) eq); [intros; apply string_eqb_eq|apply forall2_eq; auto].
    + apply forall2_swap. eapply Forall2_impl; [|exact HF]. intros kd t. apply C28_type_equals_kind_iff_same.
Qed.

Lemma find_contract_iff fb C n : layout_ok C -> find_serialized_contract fb C = Ok n <-> selected fb C n.
Proof.
  intros HL. unfold find_serialized_contract, selected.
  destruct (fb_contracts fb) as [l|].
  2:{ split; [discriminate|]. intros [l [fc [E _]]]. discriminate. }
  pose proof (find_index_spec (contract_matches C) l 0) as H.
  destruct (find_index (contract_matches C) 0 l) as [m|]; cbn.
  - destruct H as [_ [[x [Hx Hm]] Hf]]. rewrite Nat.sub_0_r in *. split.
    + intros E; injection E as <-. exists l, x. split; auto. split; auto.
      split; [apply contract_matches_iff; auto|]. intros m' fc' Hlt Hn Hd.
      apply (contract_matches_iff _ _ HL) in Hd. rewrite (Hf _ _ Hlt Hn) in Hd. discriminate.
    + intros [l' [fc [E [Hn [Hd Hfirst]]]]]. injection E as <-. f_equal.
      apply (contract_matches_iff _ _ HL) in Hd.
      destruct (lt_eq_lt_dec m n) as [[Hlt|]|Hlt]; auto; exfalso.
      * apply (Hfirst m x Hlt Hx). apply contract_matches_iff; auto.
      * rewrite (Hf _ _ Hlt Hn) in Hd. discriminate.
  - split; [discriminate|]. intros [l' [fc [E [Hn [Hd _]]]]]. injection E as <-.
    apply (contract_matches_iff _ _ HL) in Hd. rewrite (H fc) in Hd by (eapply nth_error_In; eauto). discriminate.
Qed.

Lemma is_ok_iff {A} (o : outcome A) : is_ok o = true <-> exists a, o = Ok a.
Proof. destruct o; cbn; split; try discriminate; try (intros [? ?]; discriminate); eauto. Qed.

(** *** C34 *)
Theorem C34_register_selects_by_id_and_layout :
  forall fb k cs d C r d',
    builds fb k cs d -> layout_ok C -> builder_register d C = (r, d') ->
    ((exists c, r = Ok c) <->
       (exists n, selected fb C n) /\ (forall c, In c cs -> ct_id (ci_ty c) <> ct_id C) /\
       ct_id C <> reserved_id) /\
    (forall c, r = Ok c -> ci_ty c = C /\ (forall c', In c' cs -> ci_handle c' <> ci_handle c)) /\
    (forall e, r = Err e -> d' = d) /\ r <> Panic.
Proof.
  intros fb k cs d C r d' Hb HL E.
  destruct (builds_inv _ _ _ _ Hb) as [s [fs [fc [Hd _]]]].
  pose proof (builder_register_spec _ _ _ _ _ _ _ _ _ _ Hd E) as H.
  destruct r as [c|e|]; [|destruct H as [-> H]|tauto].
  - destruct H as [Hty [Hf [Hno [_ [_ [s' [fs' [fc' [Hd' _]]]]]]]]].
    split; [|split; [|split; [discriminate|discriminate]]].
    + split; [intros _|eauto]. apply is_ok_iff in Hf. destruct Hf as [n Hf].
      split; [exists n; apply find_contract_iff; auto|]. split.
      * intros c' Hc' Eid. apply Hno. exists (ci_handle c'), (ci_ty c'). split; auto.
        apply (db_con _ _ _ _ _ _ _ Hd). right. destruct c'; auto.
      * intros Eid. apply Hno. exists (ci_handle (d_null d)), NullContract. split; auto.
        apply (db_con _ _ _ _ _ _ _ Hd). auto.
    + intros c0 E0; injection E0 as <-. split; auto. intros c' Hc'.
      pose proof (db_nodup _ _ _ _ _ _ _ Hd') as Hnd. rewrite map_app in Hnd. cbn in Hnd.
      intros Eh. apply NoDup_remove_2 in Hnd. rewrite app_nil_r in Hnd. apply Hnd. rewrite <- Eh. apply in_map; auto.
  - split; [|split; [discriminate|split; [auto|discriminate]]].
    split; [intros [c Ec]; discriminate|]. intros [[n Hn] [Hc Hnull]].
    apply find_contract_iff in Hn; auto. destruct H as [H|[_ [_ [h [C' [Hcon Hid]]]]]]; [congruence|].
    apply (db_con _ _ _ _ _ _ _ Hd) in Hcon. destruct Hcon as [[_ ->]|Hin].
    + destruct Hnull. symmetry. exact Hid.
    + exfalso. apply (Hc _ Hin). auto.
Qed.
Print Assumptions C34_register_selects_by_id_and_layout.

(** [selected] picks at most one contract, and contracts with different ids never
    share one. *)
Theorem C34_selection_is_unique :
  forall fb C C' n n', selected fb C n -> selected fb C' n' ->
    (C = C' -> n = n') /\ (n = n' -> ct_id C = ct_id C').
Proof.
  intros fb C C' n n' [l [fc [E1 [E2 [E3 E4]]]]] [l' [fc' [F1 [F2 [F3 F4]]]]].
  rewrite E1 in F1. injection F1 as <-. split.
  - intros <-. destruct (lt_eq_lt_dec n n') as [[H|]|H]; auto; exfalso; [eapply F4|eapply E4]; eauto.
  - intros <-. rewrite E2 in F2. injection F2 as <-.
    destruct E3 as [t [-> _]], F3 as [t' [E _]]. injection E as H1 H2 _.
    destruct (ct_id C), (ct_id C'); cbn in *; congruence.
Qed.
Print Assumptions C34_selection_is_unique.

(** *** C26 *)
Lemma stands_for_impl (obj con obj' con' : nat -> index -> Prop) fv v :
  (forall j o, obj j o -> obj' j o) -> (forall j o, con j o -> con' j o) ->
  stands_for obj con fv v -> stands_for obj' con' fv v.
Proof. intros H1 H2 H. destruct H; constructor; auto. Qed.

Lemma stands_tag obj con fv v : stands_for obj con fv v -> tag_is (p_type fv) (prop_type v).
Proof. intros H. destruct H; cbn; eexists; split; reflexivity. Qed.

Definition cs_ok (cs : list contract_inst) : Prop := Forall (fun c => layout_ok (ci_ty c)) cs.

Definition made_of (d : deser) (j : nat) (o : index) : Prop := In (o, j) (ds_objects d).
Lemma conforms_of_dinv fb k cs d s fs fc b' : cs_ok cs -> dinv fb k cs d s fs fc -> finishes d (Ok b') ->
  conforms fb k cs b' (made_of d) /\
  forall j o i oi, made_of d j o -> buf_field fb j i = Some (FObjectHandle oi) -> exists o', made_of d (N.to_nat oi) o'.
Proof.
  intros HL Hd Hfin. unfold made_of.
  pose proof (di_b _ _ _ _ _ _ _ Hd) as Hb.
  pose proof (finish_spec _ _ _ _ _ _ _ _ Hd Hfin) as [[s' [fs' [fc' [Hr [Hk [Hcon [Hlive [Hmem Hmade]]]]]]]] Hrefs].
  assert (HLc : forall c, In c cs -> layout_ok (ci_ty c)) by (apply Forall_forall; exact HL).
  assert (Hobj : forall o, obj_at b' o <> None <-> exists j, In (o, j) (ds_objects d)).
  { intros o. rewrite <- Hlive. unfold obj_at. destruct (live_obj s' o) as [ro|] eqn:El.
    - destruct (rr_live _ _ _ _ Hr _ _ El) as [H _]. rewrite H. split; discriminate.
    - rewrite (rr_dead _ _ _ _ Hr _ El). tauto. }
  split.
  - constructor.
    + exact Hk.
    + intros j o j' o' H1 H2. split; intros E; subst; eapply (di_bij _ _ _ _ _ _ _ Hd _ _ _ _ H1 H2); auto.
    + intros h. unfold con_at. pose proof (rr_con _ _ _ _ Hr h) as H. destruct (rs_con s' h) as [C|] eqn:Ec.
      * destruct H as [cd [H _]]. rewrite H. split; [|discriminate]. intros _. exists (mkCinst C h). split; auto. apply Hcon; auto.
      * rewrite H. split; [tauto|]. intros [[C h'] [Hc Eh]]. cbn in Eh. subst h'. apply Hcon in Hc. congruence.
    + intros c Hc. assert (Hc' : rs_con s' (ci_handle c) = Some (ci_ty c)) by (apply Hcon; destruct c; auto).
      pose proof (rr_con _ _ _ _ Hr (ci_handle c)) as H. rewrite Hc' in H. destruct H as [cd [Hg [Hid Hm]]].
      exists cd. split; auto. split; auto. intros o. split.
      * intros Hin. destruct (Hmem c o Hc) as [j Hj]; [congruence|].
        assert (Hno : obj_at b' o <> None) by (apply Hobj; eauto).
        destruct (bi_con_obj _ (rr_inv _ _ _ _ Hr) _ _ _ Hg Hin) as [Hdd|H]; auto.
        exfalso. apply Hno. exact (proj1 Hdd).
      * intros [ob [Ho Eo]]. destruct (bi_obj_con _ (rr_inv _ _ _ _ Hr) _ _ Ho) as [cd' [Hg' Hin]].
        rewrite Eo, Hg in Hg'. injection Hg' as <-. auto.
    + exact Hobj.
    + intros j o Ho. destruct (Hmade _ _ Ho) as [c [ro [idx [A1 [A2 [A3 [A4 [A5 [A6 [A7 [A8 [A9 A10]]]]]]]]]]]].
      assert (Hl : live_obj s' o = Some ro) by (unfold live_obj; rewrite A2, A3; auto).
      destruct (rr_live _ _ _ _ Hr _ _ Hl) as [Hg [C [HC [Hv Hch]]]].
      assert (Hc' : rs_con s' (ci_handle c) = Some (ci_ty c)) by (apply Hcon; destruct c; auto).
      rewrite A4, Hc' in HC. injection HC as <-.
      exists c, idx, (mkObject (fs' o) (fc' o) (ro_contract ro) (ro_warp ro)). cbn.
      split; auto. split; [apply find_contract_iff; auto|]. split; auto. split; auto. split; auto. split; auto.
      split.
      { assert (HH : length (fc' o) = length (ro_chans ro)).
        { apply (ce_len _ _ _ _ (rr_ch _ _ _ _ Hr) o). rewrite A2. reflexivity. }
        rewrite A6 in HH. destruct (fc' o); [auto|discriminate]. }
      split; [rewrite A9, <- Hv, map_length; auto|].
      intros i t Ht. rewrite <- Hv, nth_error_map in Ht. destruct (nth_error (ro_vals ro) i) as [v|] eqn:Ev; [|discriminate].
      cbn in Ht. injection Ht as <-. destruct (A10 _ _ Ev) as [n [fv [B1 [B2 B3]]]].
      exists fv, v. split; [unfold buf_field; rewrite B1; auto|].
      split; [eapply stands_tag; eauto|]. split.
      { destruct c as [C h]. rewrite (rec_field _ _ _ _ C h i o ro Hr Hc' Hl A4). auto. }
      split; auto. eapply stands_for_impl; [| |exact B3]; auto.
      intros n' h Hin. apply (db_reg _ _ _ _ _ _ _ Hb) in Hin. destruct Hin as [c' [G1 [G2 G3]]].
      exists c'. split; auto. split; auto. apply find_contract_iff; auto.
  - intros j o i oi Ho Hf. eapply Hrefs; eauto.
Qed.

Theorem C26_accepted_objects_conform :
  forall fb k cs tried done d b',
    cs_ok cs -> deserializes fb k cs tried done d -> finishes d (Ok b') ->
    exists from, conforms fb k cs b' from /\
      (forall j, belongs fb done j -> exists o, from j o) /\
      (forall j o, from j o -> belongs fb tried j) /\
      (forall j o i oi, from j o -> buf_field fb j i = Some (FObjectHandle oi) -> exists o', from (N.to_nat oi) o').
Proof.
  intros fb k cs tried done d b' HL Hds Hfin.
  destruct (deserializes_inv _ _ _ _ _ _ Hds) as [s [fs [fc [Hd [Hi1 [Hi2 Hcov]]]]]].
  assert (HLc : forall c, In c cs -> layout_ok (ci_ty c)) by (apply Forall_forall; exact HL).
  destruct (conforms_of_dinv _ _ _ _ _ _ _ _ HL Hd Hfin) as [Hcf Hrefs].
  exists (made_of d). split; [exact Hcf|]. split; [|split; [|exact Hrefs]]; unfold made_of.
  - intros j [c [idx [H1 [H2 H3]]]]. apply (Hcov c idx); auto. apply find_contract_iff; auto.
  - intros j o Ho. destruct (deserializes_touched _ _ _ _ _ _ Hds) as [P [Ht HP]].
    destruct (HP j) as [c [idx [H1 [H2 H3]]]]; [eapply (proj2 Ht); eauto|].
    exists c, idx. split; auto. split; auto. apply find_contract_iff; auto.
Qed.
Print Assumptions C26_accepted_objects_conform.

(** [finish] never panics; it fails exactly when some object made so far refers to
    an object that was not made. *)
Theorem C26_finish_fails_iff_dangling :
  forall fb k cs done d r,
    cs_ok cs -> deserializes fb k cs done done d -> finishes d r ->
    r <> Panic /\
    ((exists b', r = Ok b') <->
     (forall j i oi, belongs fb done j -> buf_field fb j i = Some (FObjectHandle oi) -> belongs fb done (N.to_nat oi))).
Proof.
  intros fb k cs done d r HL Hds Hfin.
  destruct (deserializes_inv _ _ _ _ _ _ Hds) as [s [fs [fc [Hd [Hi1 [Hi2 Hcov]]]]]].
  pose proof (finish_spec _ _ _ _ _ _ _ _ Hd Hfin) as HF.
  assert (HLc : forall c, In c cs -> layout_ok (ci_ty c)) by (apply Forall_forall; exact HL).
  destruct r as [b'|e|]; [| |tauto]; split; try discriminate.
  - split; [intros _|eauto]. destruct (C26_accepted_objects_conform _ _ _ _ _ _ _ HL Hds Hfin) as [from [_ [H1 [H2 H3]]]].
    intros j i oi Hj Hf. destruct (H1 _ Hj) as [o Ho]. destruct (H3 _ _ _ _ Ho Hf) as [o' Ho']. eauto.
  - destruct HF as [_ [o [j [i [oi [Ho [Hf Hno]]]]]]]. split; [intros [b' E]; discriminate|].
    intros H. exfalso. destruct (deserializes_touched _ _ _ _ _ _ Hds) as [P [Ht HP]].
    assert (Hbj : belongs fb done j).
    { destruct (HP j) as [c [idx [H1 [H2 H3]]]]; [eapply (proj2 Ht); eauto|].
      exists c, idx. split; auto. split; auto. apply find_contract_iff; auto. }
    destruct (H _ _ _ Hbj Hf) as [c [idx [G1 [G2 G3]]]].
    destruct (Hcov c idx (N.to_nat oi)) as [o' Ho']; auto. { apply find_contract_iff; auto. }
    exact (Hno _ Ho').
Qed.
Print Assumptions C26_finish_fails_iff_dangling.

(** [finish] in general (also after failed calls). *)
Theorem C26_finish_never_panics :
  forall fb k cs tried done d r,
    deserializes fb k cs tried done d -> finishes d r -> r <> Panic.
Proof.
  intros fb k cs tried done d r Hds Hfin ->.
  destruct (deserializes_inv _ _ _ _ _ _ Hds) as [s [fs [fc [Hd _]]]].
  exact (finish_spec _ _ _ _ _ _ _ _ Hd Hfin).
Qed.
Print Assumptions C26_finish_never_panics.

(** The objects of a contract are deserialized without panic, unless one of them
    has a state index out of range, a state with an unknown tag or a string state
    without string, or the contract was deserialized before. *)
Theorem C26_deserialize_panics_only_on_broken_objects_partial :
  forall fb k cs tried done d c r d',
    cs_ok cs -> deserializes fb k cs tried done d -> In c cs -> ~ In c tried ->
    (forall j, belongs fb [c] j -> ~ crashes fb j) ->
    deserialize_objects d c = (r, d') -> r <> Panic.
Proof.
  intros fb k cs tried done d c r d' HL Hds Hc Hnt Hok E ->.
  destruct (deserialize_objects_cases _ _ _ _ _ _ _ _ _ Hds Hc Hnt E) as [j [idx [H1 [H2 H3]]]].
  apply (Hok j); auto. exists c, idx. split; [left; auto|]. split; auto. apply find_contract_iff; auto.
  unfold cs_ok in HL. rewrite Forall_forall in HL. auto.
Qed.
Print Assumptions C26_deserialize_panics_only_on_broken_objects_partial.

(** ... and they are accepted if each fits the contract. *)
Theorem C26_fitting_objects_are_accepted :
  forall fb k cs tried done d c r d',
    cs_ok cs -> deserializes fb k cs tried done d -> In c cs -> ~ In c tried ->
    ct_chans (ci_ty c) = [] -> fb_states fb <> None ->
    (forall j, belongs fb [c] j -> ~ crashes fb j /\ fits fb cs c j) ->
    deserialize_objects d c = (r, d') -> r = Ok tt.
Proof.
  intros fb k cs tried done d c r d' HL Hds Hc Hnt Hch Hst Hok E.
  pose proof (deserialize_objects_cases _ _ _ _ _ _ _ _ _ Hds Hc Hnt E) as H.
  unfold cs_ok in HL. rewrite Forall_forall in HL.
  assert (Hbel : forall j idx, find_serialized_contract fb (ci_ty c) = Ok idx -> buf_contract fb j = Some idx -> belongs fb [c] j).
  { intros j idx H1 H2. exists c, idx. split; [left; auto|]. split; auto. apply find_contract_iff; auto. }
  destruct r as [[]|e|]; auto; exfalso; destruct H as [j [idx [H1 [H2 H3]]]]; destruct (Hok j (Hbel _ _ H1 H2)) as [Hcr Hfit]; auto.
  destruct Hfit as [F1 [F2 [F3 F4]]].
  destruct H3 as [H3|[H3|[H3|[H3|[H3|H3]]]]]; auto.
  - destruct H3 as [i [t [fv [G1 [G2 G3]]]]]. specialize (F2 _ _ _ G1 G2).
    apply C28_tag_equals_type_iff_same in F2. congruence.
  - destruct H3 as [i [n [G1 G2]]]. destruct (F3 _ _ G1) as [c' [K1 K2]]. apply (G2 c' K1). apply find_contract_iff; auto.
  - destruct H3 as [i [j' [i' [n [oi [G1 [G2 [G3 G4]]]]]]]]. destruct (F4 _ _ _ _ _ G1 G2 G4) as [-> ->]. apply G3. auto.
Qed.
Print Assumptions C26_fitting_objects_are_accepted.

(** *** Concrete buffers *)
Definition dsC : contract_ty :=
  mkCty (mkCid "ex.node" (1%N, 2%N, 3%N)) [TPrim TU8; TPrim TObjectHandle; TPrim TString; TPrim TContractDataHandle]
        ["a"; "next"; "s"; "c"] [] [].
(** A buffer's tables, objects before states. *)
Definition dsMk (cs : option (list fb_contract)) (os : option (list fb_object)) (vs : option (list fbval)) : fb_baseline :=
  mkFb cs vs os.
Definition dsFC : fb_contract :=
  mkFbContract (Some (mkFbCid (Some "ex.node") (1%N, 2%N, 3%N)))
    (Some (mkFbCstates (Some ["a"; "next"; "s"; "c"]) (Some [KU8; KObjectHandle; KString; KContractDataHandle]))).
(** Two objects referring to each other, and one object of another contract. *)
Definition dsOther : fb_contract :=
  mkFbContract (Some (mkFbCid (Some "ex.other") (0%N, 0%N, 1%N))) (Some (mkFbCstates (Some []) (Some []))).
Definition dsFb : fb_baseline :=
  dsMk (Some [dsOther; dsFC; dsFC])
       (Some [mkFbObject (Some 1%N) (Some [0%N; 1%N; 2%N; 3%N]); mkFbObject (Some 0%N) None;
              mkFbObject (Some 1%N) (Some [4%N; 5%N; 6%N; 7%N])])
       (Some [FU8 7; FObjectHandle 2; FFbString (Some "x"); FContractDataHandle 1;
              FU8 8; FObjectHandle 0; FFbString (Some "y"); FContractDataHandle 1]).

(** A builder with the contracts [Cs] registered. *)
Definition ds_zero : index := mkIndex 0 0%N.
Definition ds_builder (fb : fb_baseline) (Cs : list contract_ty) : outcome (list contract_inst) * builder :=
  match builder_new fb KMain with
  | Ok d => register_all d Cs
  | _ => (Panic, mkBuilder (baseline_new KMain) [] fb (mkCinst NullContract ds_zero) ds_zero)
  end.
(** ... and the objects of [cs] deserialized. *)
Definition ds_deser (fb : fb_baseline) (Cs : list contract_ty) (cs : list contract_inst) : outcome unit * deser :=
  deserialize_all (deser_new (snd (ds_builder fb Cs))) cs.

Lemma register_all_builds fb k : forall Cs cs d l d', builds fb k cs d -> register_all d Cs = (Ok l, d') -> builds fb k (cs ++ l) d'.
Proof.
  induction Cs as [|C Cs IH]; intros cs d l d' Hb; cbn.
  - intros E; injection E as <- <-. rewrite app_nil_r. auto.
  - destruct (builder_register d C) as [[c|e|] d1] eqn:E1; try discriminate.
    destruct (register_all d1 Cs) as [[l'|e|] d2] eqn:E2; try discriminate.
    intros E; injection E as <- <-. replace (cs ++ c :: l') with ((cs ++ [c]) ++ l') by (rewrite <- app_assoc; reflexivity).
    eapply IH; eauto. eapply builds_ok; eauto.
Qed.
Lemma ds_builds fb Cs l : fst (ds_builder fb Cs) = Ok l -> builds fb KMain l (snd (ds_builder fb Cs)).
Proof.
  unfold ds_builder. destruct (builder_new fb KMain) as [d|e|] eqn:E; try discriminate.
  destruct (register_all d Cs) as [r d'] eqn:E'. cbn. intros ->.
  change l with ([] ++ l). eapply register_all_builds; eauto. constructor; auto.
Qed.
Lemma deserialize_all_des fb k cs : forall l tried done d d',
  deserializes fb k cs tried done d -> incl l cs -> deserialize_all d l = (Ok tt, d') ->
  deserializes fb k cs (tried ++ l) (done ++ l) d'.
Proof.
  induction l as [|c l IH]; intros tried done d d' Hd Hi; cbn.
  - intros E; injection E as <-. rewrite !app_nil_r. auto.
  - destruct (deserialize_objects d c) as [[[]|e|] d1] eqn:E1; try discriminate. intros E.
    replace (tried ++ c :: l) with ((tried ++ [c]) ++ l) by (rewrite <- app_assoc; reflexivity).
    replace (done ++ c :: l) with ((done ++ [c]) ++ l) by (rewrite <- app_assoc; reflexivity).
    eapply IH; eauto. { eapply des_ok; eauto. apply Hi. left; auto. } { intros x Hx. apply Hi. right; auto. }
Qed.
Lemma ds_deserializes fb Cs cs l :
  fst (ds_builder fb Cs) = Ok cs -> incl l cs -> fst (ds_deser fb Cs l) = Ok tt ->
  deserializes fb KMain cs l l (snd (ds_deser fb Cs l)).
Proof.
  intros H1 Hi H2. unfold ds_deser in *. destruct (deserialize_all _ l) as [r d'] eqn:E. cbn in H2. subst r.
  change l with ([] ++ l) at 1 2. eapply deserialize_all_des; eauto. constructor. apply ds_builds; auto.
Qed.

Definition dsCon : contract_inst := mkCinst dsC (mkIndex 1 0%N).

Example ds_builder_ok : fst (ds_builder dsFb [dsC]) = Ok [dsCon].
Proof. vm_compute. reflexivity. Qed.
Example ds_deser_ok : fst (ds_deser dsFb [dsC] [dsCon]) = Ok tt.
Proof. vm_compute. reflexivity. Qed.
Example ds_finish_ok :
  exists b', finishes (snd (ds_deser dsFb [dsC] [dsCon])) (Ok b') /\
    map (fun i => field_of b' dsCon i (mkIndex 1 0%N)) [0; 1; 2; 3] =
      [Some (PPrim (VU8 7)); Some (PPrim (VObjectHandle (mkIndex 2 0%N)));
       Some (PPrim (VString "x")); Some (PPrim (VContractDataHandle (mkIndex 1 0%N)))] /\
    map (fun i => field_of b' dsCon i (mkIndex 2 0%N)) [0; 1; 2; 3] =
      [Some (PPrim (VU8 8)); Some (PPrim (VObjectHandle (mkIndex 1 0%N)));
       Some (PPrim (VString "y")); Some (PPrim (VContractDataHandle (mkIndex 1 0%N)))].
Proof.
  set (d := snd (ds_deser dsFb [dsC] [dsCon])).
  assert (Hok : is_ok (deser_finish d (ds_states d) [d_null_obj (ds_b d)]) = true) by (vm_compute; reflexivity).
  apply is_ok_iff in Hok. destruct Hok as [b' E].
  exists b'. split.
  - exists (ds_states d), [d_null_obj (ds_b d)]. split; [apply Permutation_refl|]. split; auto.
    intros cd Hcd. vm_compute in Hcd. injection Hcd as <-. vm_compute. apply Permutation_refl.
  - assert (forall f : baseline -> list (option dynprop), f b' = match deser_finish d (ds_states d) [d_null_obj (ds_b d)] with
            Ok b => f b | _ => [] end) by (intros; rewrite E; auto).
    rewrite (H (fun b => map (fun i => field_of b dsCon i (mkIndex 1 0%N)) [0; 1; 2; 3])).
    rewrite (H (fun b => map (fun i => field_of b dsCon i (mkIndex 2 0%N)) [0; 1; 2; 3])).
    split; vm_compute; reflexivity.
Qed.
(** The hypotheses of the theorems above hold of it. *)
Example ds_hypotheses :
  cs_ok [dsCon] /\ builds dsFb KMain [dsCon] (snd (ds_builder dsFb [dsC])) /\
  deserializes dsFb KMain [dsCon] [dsCon] [dsCon] (snd (ds_deser dsFb [dsC] [dsCon])) /\
  selected dsFb dsC 1 /\ belongs dsFb [dsCon] 0 /\ belongs dsFb [dsCon] 2 /\ ~ belongs dsFb [dsCon] 1 /\
  (forall j, belongs dsFb [dsCon] j -> ~ crashes dsFb j /\ fits dsFb [dsCon] dsCon j).
Proof.
  assert (Hsel : selected dsFb dsC 1) by (apply find_contract_iff; reflexivity).
  assert (Hbel : forall j, belongs dsFb [dsCon] j -> j = 0 \/ j = 2).
  { intros j [c [idx [[<-|[]] [H1 H2]]]]. apply find_contract_iff in H1; [|reflexivity]. injection H1 as <-.
    unfold buf_contract, buf_object, dsFb in H2. cbn in H2.
    destruct j as [|[|[|j]]]; cbn in H2; try discriminate; auto. destruct j; discriminate. }
  split; [repeat constructor|]. split; [apply ds_builds; vm_compute; reflexivity|].
  split; [apply ds_deserializes; [vm_compute; reflexivity|intros x Hx; exact Hx|vm_compute; reflexivity]|].
  split; auto. split; [exists dsCon, 1; cbn; auto|]. split; [exists dsCon, 1; cbn; auto|].
  split; [intros H; destruct (Hbel _ H); discriminate|].
  intros j Hj. assert (Hfit2 : forall j j' i i' n oi, nth_error (buf_indices dsFb j) i = Some n ->
      nth_error (buf_indices dsFb j') i' = Some n -> buf_state dsFb n = Some (FObjectHandle oi) -> j = j' /\ i = i').
  { assert (Hx : forall j i n oi, nth_error (buf_indices dsFb j) i = Some n -> buf_state dsFb n = Some (FObjectHandle oi) ->
               (n = 1 /\ j = 0 /\ i = 1) \/ (n = 5 /\ j = 2 /\ i = 1)).
    { intros j0 i n oi Hn Hs. destruct j0 as [|[|[|[|j0]]]]; unfold buf_indices in Hn; cbn in Hn;
        repeat (destruct i as [|i]; cbn in Hn; [injection Hn as <-; cbn in Hs; try discriminate; auto|]); destruct i; try discriminate; destruct j0; discriminate. }
    intros j1 j2 i1 i2 n oi H1 H2 H3. destruct (Hx _ _ _ _ H1 H3) as [[A1 [A2 A3]]|[A1 [A2 A3]]], (Hx _ _ _ _ H2 H3) as [[B1 [B2 B3]]|[B1 [B2 B3]]]; subst; auto; discriminate. }
  destruct (Hbel _ Hj) as [->| ->]; (split;
    [intros [n [Hin Hb]]; cbn in Hin; repeat (destruct Hin as [<-|Hin]); try contradiction;
       destruct Hb as [Hb|[[g Hb]|Hb]]; discriminate|]);
    (split; [reflexivity|split; [|split; [|intros; eapply Hfit2; eauto]]]).
  - intros i t fv Ht Hf. repeat (destruct i as [|i]; [cbn in Ht, Hf; injection Ht as <-; injection Hf as <-; eexists; split; reflexivity|]). destruct i; discriminate.
  - intros i n Hf. exists dsCon. split; [left; auto|].
    do 4 (destruct i as [|i]; [cbn in Hf; try discriminate; injection Hf as <-; exact Hsel|]). destruct i; discriminate.
  - intros i t fv Ht Hf. repeat (destruct i as [|i]; [cbn in Ht, Hf; injection Ht as <-; injection Hf as <-; eexists; split; reflexivity|]). destruct i; discriminate.
  - intros i n Hf. exists dsCon. split; [left; auto|].
    do 4 (destruct i as [|i]; [cbn in Hf; try discriminate; injection Hf as <-; exact Hsel|]). destruct i; discriminate.
Qed.

(** C26, refuted: panics, each from a buffer the flatbuffers verifier accepts and
    correct use of the API: a state index out of range, an unknown union tag, a
    string state without string, and asking for the same contract twice. *)
Definition ds_panics (fb : fb_baseline) (C : contract_ty) (again : bool) : Prop :=
  exists c tried d d', deserializes fb KMain [c] tried tried d /\ ci_ty c = C /\
    (again = false -> tried = []) /\ deserialize_objects d c = (Panic, d').
Definition ds1 (st : list N) (v : list fbval) : fb_baseline :=
  dsMk (Some [dsFC]) (Some [mkFbObject (Some 0%N) (Some st)]) (Some v).

Lemma ds_panics_now fb C c :
  fst (ds_builder fb [C]) = Ok [c] -> ci_ty c = C ->
  fst (deserialize_objects (deser_new (snd (ds_builder fb [C]))) c) = Panic -> ds_panics fb C false.
Proof.
  intros H1 H2 H3. destruct (deserialize_objects _ c) as [r d'] eqn:E. cbn in H3. subst r.
  exists c, [], (deser_new (snd (ds_builder fb [C]))), d'. split; [constructor; apply ds_builds; auto|auto].
Qed.

Theorem C26_never_panics_refuted :
  ds_panics (ds1 [9%N; 1%N; 2%N; 3%N] [FU8 1; FObjectHandle 0; FFbString (Some "z"); FContractDataHandle 0]) dsC false /\
  ds_panics (ds1 [0%N; 1%N; 2%N; 3%N] [FU8 1; FOther 77; FU8 1; FU8 1]) dsC false /\
  ds_panics (ds1 [0%N; 1%N; 2%N; 3%N] [FU8 1; FObjectHandle 0; FFbString None; FContractDataHandle 0]) dsC false /\
  (exists fb C, ds_panics fb C true /\ forall j, ~ crashes fb j).
Proof.
  split; [|split; [|split]].
  - eapply (ds_panics_now _ _ dsCon); vm_compute; reflexivity.
  - eapply (ds_panics_now _ _ dsCon); vm_compute; reflexivity.
  - eapply (ds_panics_now _ _ dsCon); vm_compute; reflexivity.
  - exists (dsMk (Some [dsOther]) (Some [mkFbObject (Some 0%N) None]) None),
      (mkCty (mkCid "ex.other" (0%N, 0%N, 1%N)) [] [] [] []).
    set (fb := dsMk _ _ _). set (C := mkCty _ _ _ _ _). set (c := mkCinst C (mkIndex 1 0%N)).
    split.
    + destruct (deserialize_objects (snd (ds_deser fb [C] [c])) c) as [r d'] eqn:E.
      exists c, [c], (snd (ds_deser fb [C] [c])), d'. split; [|split; [reflexivity|split; [discriminate|]]].
      * apply ds_deserializes; [vm_compute; reflexivity|intros x Hx; exact Hx|vm_compute; reflexivity].
      * rewrite E. f_equal. change r with (fst (r, d')). rewrite <- E. vm_compute. reflexivity.
    + intros j [n [Hin _]]. unfold buf_indices, buf_object in Hin. cbn in Hin.
      destruct j as [|[|j]]; cbn in Hin; contradiction.
Qed.
Print Assumptions C26_never_panics_refuted.

(** *** C27 *)

(** The documented error for objects of unregistered contracts does not exist:
    such an object is dropped. *)
Theorem C27_unregistered_objects_reported_refuted :
  exists fb cs d b',
    deserializes fb KMain cs cs cs d /\ finishes d (Ok b') /\
    exists j, buf_object fb j <> None /\ ~ belongs fb cs j.
Proof.
  destruct ds_finish_ok as [b' [H _]]. exists dsFb, [dsCon], (snd (ds_deser dsFb [dsC] [dsCon])), b'.
  destruct ds_hypotheses as [_ [_ [H1 [_ [_ [_ [H2 _]]]]]]]. split; auto. split; auto. exists 1. split; [discriminate|auto].
Qed.
Print Assumptions C27_unregistered_objects_reported_refuted.

(** Exactly which objects a successful deserialization contains: those of the
    contracts whose objects were asked for, in one-to-one correspondence. *)
Theorem C27_exactly_the_requested_objects :
  forall fb k cs done d b',
    cs_ok cs -> deserializes fb k cs done done d -> finishes d (Ok b') ->
    exists from, conforms fb k cs b' from /\ forall j, (exists o, from j o) <-> belongs fb done j.
Proof.
  intros fb k cs done d b' HL Hds Hfin.
  destruct (C26_accepted_objects_conform _ _ _ _ _ _ _ HL Hds Hfin) as [from [H1 [H2 [H3 H4]]]].
  exists from. split; auto. intros j. split; auto. intros [o Ho]; eauto.
Qed.
Print Assumptions C27_exactly_the_requested_objects.

(** A reference from a requested object to an object that was not requested is
    reported. *)
Theorem C27_reference_to_missing_object_reported :
  forall fb k cs done d r j i oi,
    cs_ok cs -> deserializes fb k cs done done d -> finishes d r ->
    belongs fb done j -> buf_field fb j i = Some (FObjectHandle oi) -> ~ belongs fb done (N.to_nat oi) ->
    exists e, r = Err e.
Proof.
  intros fb k cs done d r j i oi HL Hds Hfin Hj Hf Hno.
  destruct (C26_finish_fails_iff_dangling _ _ _ _ _ _ HL Hds Hfin) as [Hp H].
  destruct r as [b'|e|]; [|eauto|congruence]. exfalso. apply Hno. eapply (proj1 H); eauto.
Qed.
Print Assumptions C27_reference_to_missing_object_reported.
Definition dsDangling : fb_baseline :=
  dsMk (Some [dsOther; dsFC])
       (Some [mkFbObject (Some 1%N) (Some [0%N; 1%N; 2%N; 3%N]); mkFbObject (Some 0%N) None])
       (Some [FU8 7; FObjectHandle 1; FFbString (Some "x"); FContractDataHandle 1]).
Example dangling_example :
  let d := snd (ds_deser dsDangling [dsC] [dsCon]) in
  deserializes dsDangling KMain [dsCon] [dsCon] [dsCon] d /\
  deser_finish d (ds_states d) [d_null_obj (ds_b d)] = Err EDanglingObjectRef.
Proof.
  split; [|vm_compute; reflexivity].
  apply ds_deserializes; [vm_compute; reflexivity|intros x Hx; exact Hx|vm_compute; reflexivity].
Qed.
(** Mismatches are errors, not panics. *)
Example mismatch_examples :
  fst (ds_deser (ds1 [0%N; 1%N; 2%N; 2%N] [FU8 1; FObjectHandle 0; FFbString (Some "z")]) [dsC] [dsCon]) = Err (EObjStateType 3) /\
  fst (ds_deser (ds1 [0%N; 1%N; 2%N] [FU8 1; FObjectHandle 0; FFbString (Some "z")]) [dsC] [dsCon]) = Err EObjStateCount /\
  fst (ds_deser (ds1 [0%N; 1%N; 2%N; 3%N] [FU8 1; FObjectHandle 0; FFbString (Some "z"); FContractDataHandle 5]) [dsC] [dsCon]) = Err EContractNotRegistered /\
  fst (ds_builder dsFb [dsC; dsC]) = Err EContractAlreadyAdded /\
  fst (ds_builder (dsMk (Some [dsOther]) None None) [dsC]) = Err ENoMatchingContract /\
  fst (ds_builder (dsMk None None None) [dsC]) = Err ENoContracts.
Proof. vm_compute. auto 10. Qed.
