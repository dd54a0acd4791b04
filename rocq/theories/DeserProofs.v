(** The deserializer's invariant. *)
From Verif Require Export RecordProofs SerialSpec.
Open Scope nat_scope.

(** ** Bimaps *)
Section Bimap.
Context {A B : Type} (eqa : A -> A -> bool) (eqb : B -> B -> bool)
  (eqa_spec : forall x y, reflect (x = y) (eqa x y)) (eqb_spec : forall x y, reflect (x = y) (eqb x y)).

Definition bij (m : list (A * B)) : Prop :=
  forall a b a' b', In (a, b) m -> In (a', b') m -> (a = a' <-> b = b').

Lemma bm_fresh_true a b m :
  bm_fresh eqa eqb a b m = true <-> forall a' b', In (a', b') m -> a' <> a /\ b' <> b.
Proof.
  unfold bm_fresh. rewrite Bool.negb_true_iff. split.
  - intros H a' b' Hin.
    assert (Ht : bm_touches eqa eqb a b (a', b') = false).
    { destruct (bm_touches eqa eqb a b (a', b')) eqn:E; auto.
      rewrite (proj2 (existsb_exists _ _) (ex_intro _ _ (conj Hin E))) in H. discriminate. }
    unfold bm_touches in Ht. cbn in Ht. apply Bool.orb_false_iff in Ht. destruct Ht as [H1 H2].
    destruct (eqa_spec a a'); [discriminate|]. destruct (eqb_spec b b'); [discriminate|]. split; congruence.
  - intros H. apply Bool.not_true_iff_false. intros E. apply existsb_exists in E.
    destruct E as [[a' b'] [Hin Ht]]. destruct (H _ _ Hin) as [H1 H2].
    unfold bm_touches in Ht. cbn in Ht. apply Bool.orb_true_iff in Ht.
    destruct Ht as [Ht|Ht]; [destruct (eqa_spec a a')|destruct (eqb_spec b b')]; congruence.
Qed.
Lemma bm_insert_fresh a b m : bm_fresh eqa eqb a b m = true -> bm_insert eqa eqb a b m = m ++ [(a, b)].
Proof.
  unfold bm_fresh, bm_insert. rewrite Bool.negb_true_iff. intros H. f_equal.
  induction m as [|p m IH]; cbn in *; auto. apply Bool.orb_false_iff in H. destruct H as [H1 H2].
  rewrite H1. cbn. f_equal. auto.
Qed.
Lemma bij_nil : bij [].
Proof. intros a b a' b' []. Qed.
Lemma bij_snoc a b m : bij m -> bm_fresh eqa eqb a b m = true -> bij (m ++ [(a, b)]).
Proof.
  intros Hb Hf a1 b1 a2 b2 H1 H2. rewrite bm_fresh_true in Hf.
  apply in_app_or in H1, H2. cbn in H1, H2.
  destruct H1 as [H1|[H1|[]]], H2 as [H2|[H2|[]]].
  - apply (Hb _ _ _ _ H1 H2).
  - injection H2 as <- <-. destruct (Hf _ _ H1). split; congruence.
  - injection H1 as <- <-. destruct (Hf _ _ H2). split; congruence.
  - injection H1 as <- <-. injection H2 as <- <-. tauto.
Qed.
Lemma bm_left_in (m : list (A*B)) a b : bm_left eqa a m = Some b -> In (a, b) m.
Proof.
  unfold bm_left. destruct (find _ m) as [[a' b']|] eqn:E; [|discriminate]. cbn. intros H; injection H as <-.
  apply find_some in E. destruct E as [Hin E]. cbn in E. destruct (eqa_spec a a'); [subst; auto|discriminate].
Qed.
Lemma bm_left_iff (m : list (A*B)) a b : bij m -> (bm_left eqa a m = Some b <-> In (a, b) m).
Proof.
  intros Hb. split; [apply bm_left_in|]. intros Hin.
  destruct (bm_left eqa a m) as [b'|] eqn:E.
  - apply bm_left_in in E. f_equal. apply (Hb _ _ _ _ E Hin). reflexivity.
  - exfalso. unfold bm_left in E. destruct (find _ m) eqn:Ef; [discriminate|].
    pose proof (find_none _ _ Ef _ Hin) as Hn. cbn in Hn. destruct (eqa_spec a a); congruence.
Qed.
Lemma bm_left_none (m : list (A*B)) a : bm_left eqa a m = None <-> forall b, ~ In (a, b) m.
Proof.
  unfold bm_left. destruct (find _ m) as [[a' b']|] eqn:E; cbn.
  - split; [discriminate|]. intros H. apply find_some in E. destruct E as [Hin E]. cbn in E.
    destruct (eqa_spec a a'); [|discriminate]. subst. destruct (H _ Hin).
  - split; auto. intros _ b Hin. pose proof (find_none _ _ E _ Hin) as Hn. cbn in Hn. destruct (eqa_spec a a); congruence.
Qed.
Lemma bm_right_in (m : list (A*B)) a b : bm_right eqb b m = Some a -> In (a, b) m.
Proof.
  unfold bm_right. destruct (find _ m) as [[a' b']|] eqn:E; [|discriminate]. cbn. intros H; injection H as <-.
  apply find_some in E. destruct E as [Hin E]. cbn in E. destruct (eqb_spec b b'); [subst; auto|discriminate].
Qed.
Lemma bm_right_none (m : list (A*B)) b : bm_right eqb b m = None <-> forall a, ~ In (a, b) m.
Proof.
  unfold bm_right. destruct (find _ m) as [[a' b']|] eqn:E; cbn.
  - split; [discriminate|]. intros H. apply find_some in E. destruct E as [Hin E]. cbn in E.
    destruct (eqb_spec b b'); [|discriminate]. subst. destruct (H _ Hin).
  - split; auto. intros _ a Hin. pose proof (find_none _ _ E _ Hin) as Hn. cbn in Hn. destruct (eqb_spec b b); congruence.
Qed.
Lemma bm_right_iff (m : list (A*B)) a b : bij m -> (bm_right eqb b m = Some a <-> In (a, b) m).
Proof.
  intros Hb. split; [apply bm_right_in|]. intros Hin.
  destruct (bm_right eqb b m) as [a'|] eqn:E.
  - apply bm_right_in in E. f_equal. apply (Hb _ _ _ _ E Hin). reflexivity.
  - exfalso. apply (proj1 (bm_right_none _ _) E _ Hin).
Qed.
End Bimap.

(** ** Record operations, restated *)
Lemma rec_register b s fs fc C r b' :
  rrel b s fs fc -> register_contract b C = (r, b') ->
  (r = Err EContractAlreadyAdded /\ b' = b /\ exists h C', rs_con s h = Some C' /\ ct_id C' = ct_id C) \/
  (exists h, r = Ok (mkCinst C h) /\ ~ In h (rs_used_con s) /\ rs_con s h = None /\
     ~ (exists h C', rs_con s h = Some C' /\ ct_id C' = ct_id C) /\
     exists fs' fc', rrel b' (rnext s (RRegister C) (Ok (YHandle h))) fs' fc').
Proof.
  intros Hr He.
  assert (Hd : disciplined s (RRegister C)) by exact I.
  assert (Hs : cstep b (RRegister C) = (omap (fun c => YHandle (ci_handle c)) r, b')).
  { cbn. unfold on_fst. rewrite He. reflexivity. }
  destruct (good_all _ _ _ _ _ Hr Hd _ _ Hs) as [Ha Hn]. cbn in Ha.
  destruct (register_spec b C (rr_inv _ _ _ _ Hr)) as [[_ E]|[Hno [cs [h [Hi E]]]]]; rewrite E in He;
    injection He as <- <-.
  - left. destruct Ha as [[Ha _]|[_ [h [Ha _]]]]; [auto|discriminate].
  - right. cbn in Ha. destruct Ha as [[_ Ha]|[Hx [h' [Ha Hu]]]]; [discriminate|].
    injection Ha as <-. exists h. split; auto. split; auto. split; [|split; auto; apply Hn; discriminate].
    destruct (rs_con s h) as [C'|] eqn:Ec; auto. exfalso.
    pose proof (rr_con _ _ _ _ Hr h) as Hc. rewrite Ec in Hc. destruct Hc as [cd [Hg _]].
    pose proof (insert_fresh _ _ _ _ (bi_con _ (rr_inv _ _ _ _ Hr)) Hi). congruence.
Qed.

Lemma rec_create b s fs fc C h vs cs r b' :
  rrel b s fs fc -> rs_con s h = Some C -> Forall channel_wt cs ->
  object_create b (mkCinst C h) vs cs = (r, b') ->
  (map prop_type vs = ct_states C /\ map ch_type cs = ct_chans C /\
   exists o, r = Ok o /\ rs_obj s o = None /\ b_kind b' = b_kind b /\
     exists fs' fc', rrel b' (rnext s (RCreate C h vs cs) (Ok (YHandle o))) fs' fc') \/
  (~ (map prop_type vs = ct_states C /\ map ch_type cs = ct_chans C) /\ b' = b /\ exists e, r = Err e).
Proof.
  intros Hr Hc Hw He.
  assert (Hd : disciplined s (RCreate C h vs cs)) by (split; [congruence|auto]).
  assert (Hs : cstep b (RCreate C h vs cs) = (omap YHandle r, b')).
  { cbn. unfold on_fst. rewrite He. reflexivity. }
  destruct (good_all _ _ _ _ _ Hr Hd _ _ Hs) as [Ha Hn]. cbn in Ha. rewrite Hc in Ha.
  destruct (create_spec b (mkCinst C h) vs cs (rr_inv _ _ _ _ Hr)) as [[Hno [e E]]|[Hok [oh [ob [b1 [E Hcr]]]]]];
    rewrite E in He; injection He as <- <-.
  - right. destruct Ha as [[_ [_ [o [Ha _]]]]|[Ha _]]; [discriminate|]. eauto.
  - left. destruct Ha as [[H1 [H2 [o [Ha Hu]]]]|[_ Ha]]; [|discriminate].
    injection Ha as <-. split; auto. split; auto. exists oh. split; auto. split.
    + destruct (rs_obj s oh) eqn:Eo; auto. exfalso. apply Hu. apply (rr_used _ _ _ _ Hr). congruence.
    + split; [exact (cr_kind _ _ _ _ _ _ _ Hcr)|]. apply Hn. discriminate.
Qed.

Lemma rec_bind b s fs fc C h i o ro t :
  rrel b s fs fc -> rs_con s h = Some C -> live_obj s o = Some ro -> ro_contract ro = h ->
  nth_error (ct_states C) i = Some t ->
  exists sh v, bind_state b (mkPid t i h) o = Ok sh /\ nth_error (fs o) i = Some sh /\
    nth_error (ro_vals ro) i = Some v /\ prop_type v = t /\ st_at b t sh = Some v /\
    rrel b (rnext s (RBind C h i o) (Ok (YBound t sh))) fs fc.
Proof.
  intros Hr Hc Hl Hrc Ht.
  destruct (rr_live _ _ _ _ Hr _ _ Hl) as [Hg [C' [Hc' [Hv _]]]].
  rewrite Hrc, Hc in Hc'. injection Hc' as <-.
  destruct (live_obj_some _ _ _ Hl) as [Ho _].
  rewrite <- Hv in Ht. rewrite nth_error_map in Ht.
  destruct (nth_error (ro_vals ro) i) as [v|] eqn:Ev; [|discriminate]. cbn in Ht. injection Ht as Ht.
  assert (Hlen : length (fs o) = length (ro_vals ro)).
  { apply (ce_len _ _ _ _ (rr_st _ _ _ _ Hr)). rewrite Ho. reflexivity. }
  destruct (nth_error (fs o) i) as [sh|] eqn:Es.
  2:{ apply nth_error_None in Es. apply nth_error_lt in Ev. lia. }
  exists sh, v. split.
  { unfold bind_state. rewrite Hg. cbn [o_contract o_states]. unfold object_bind. cbn [pid_contract pid_idx].
    rewrite Hrc, index_eqb_refl. cbn. rewrite Es. reflexivity. }
  split; auto. split; auto. split; auto. split.
  { rewrite st_at_look, <- Ht. eapply (ce_get _ _ _ _ (rr_st _ _ _ _ Hr)); eauto. rewrite Ho. reflexivity. }
  pose proof (rr_bound _ _ _ _ Hr) as Hbd.
  destruct Hr. constructor; cbn; auto.
  intros t' sh' o' i' [E|Hin]; [|apply Hbd; auto].
  injection E as <- <- <- <-. exists ro, v. auto.
Qed.

Lemma rec_lookup b s fs fc t sh o i :
  rrel b s fs fc -> is_bound (rs_bound s) t sh o i -> lookup_bound (rs_bound s) t sh = Some (o, i).
Proof.
  intros Hr Hb. destruct (lookup_bound (rs_bound s) t sh) as [[o' i']|] eqn:E.
  - apply lookup_bound_in in E.
    destruct (rr_bound _ _ _ _ Hr _ _ _ _ Hb) as [ro [v [Ho [Hv [Ht Hf]]]]].
    destruct (rr_bound _ _ _ _ Hr _ _ _ _ E) as [ro' [v' [Ho' [Hv' [Ht' Hf']]]]].
    destruct (ce_inj _ _ _ _ (rr_st _ _ _ _ Hr) o' (ro_vals ro') i' v' o (ro_vals ro) i v sh) as [-> ->]; auto.
    + rewrite Ho'. reflexivity.
    + rewrite Ho. reflexivity.
    + congruence.
  - exfalso. eapply lookup_bound_none; eauto.
Qed.

Lemma rec_set b s fs fc sh v o i :
  rrel b s fs fc -> is_bound (rs_bound s) (prop_type v) sh o i ->
  exists b' fs' fc', state_set b sh v = (Ok tt, b') /\ b_kind b' = b_kind b /\
    rrel b' (with_robj s (write_val s o i v)) fs' fc'.
Proof.
  intros Hr Hb.
  assert (Hd : disciplined s (RSet sh v)) by (cbn; eauto).
  destruct (state_set b sh v) as [r b'] eqn:E.
  assert (Hs : cstep b (RSet sh v) = (omap (fun _ => YUnit) r, b')).
  { cbn. unfold on_fst. rewrite E. reflexivity. }
  destruct (good_all _ _ _ _ _ Hr Hd _ _ Hs) as [Ha Hn]. cbn in Ha.
  destruct r as [[]|e|]; try discriminate.
  destruct Hn as [fs' [fc' Hn]]; [discriminate|].
  cbn in Hn. rewrite (rec_lookup _ _ _ _ _ _ _ _ Hr Hb) in Hn.
  exists b', fs', fc'. split; auto. split; auto.
  unfold state_set in E. destruct (b_states b (prop_type v)); [|discriminate].
  destruct (set a sh v); [|discriminate]. injection E as <-. reflexivity.
Qed.

Lemma rec_field b s fs fc C h i o ro :
  rrel b s fs fc -> rs_con s h = Some C -> live_obj s o = Some ro -> ro_contract ro = h ->
  field_of b (mkCinst C h) i o = nth_error (ro_vals ro) i.
Proof.
  intros Hr Hc Hl Hrc. unfold field_of, ci_state_id. cbn [ci_ty ci_handle].
  destruct (nth_error (ct_states C) i) as [t|] eqn:Et.
  - cbn [option_map dyn_id_new pid_type].
    destruct (rec_bind _ _ _ _ _ _ _ _ _ _ Hr Hc Hl Hrc Et) as [sh [v [E1 [E2 [E3 [E4 [E5 _]]]]]]].
    unfold dyn_id_new. rewrite E1, E3. auto.
  - cbn. symmetry. apply nth_error_None. apply nth_error_None in Et.
    destruct (rr_live _ _ _ _ Hr _ _ Hl) as [_ [C' [Hc' [Hv _]]]]. rewrite Hrc, Hc in Hc'. injection Hc' as <-.
    rewrite <- Hv, map_length in Et. auto.
Qed.

(** ** The builder *)
Lemma find_index_spec {A} (f : A -> bool) l : forall k,
  match find_index f k l with
  | Some n => k <= n /\ (exists x, nth_error l (n - k) = Some x /\ f x = true) /\
              forall m x, m < n - k -> nth_error l m = Some x -> f x = false
  | None => forall x, In x l -> f x = false
  end.
Proof.
  induction l as [|x l IH]; intros k; cbn.
  - intros x [].
  - destruct (f x) eqn:E.
    + split; [lia|]. rewrite Nat.sub_diag. split; [exists x; auto|]. intros m y Hm. lia.
    + specialize (IH (S k)). destruct (find_index f (S k) l) as [n|].
      * destruct IH as [H1 [[y [Hy Hf]] H3]]. split; [lia|].
        replace (n - k) with (S (n - S k)) by lia. split; [exists y; auto|].
        intros [|m] z Hm Hz; cbn in Hz; [congruence|]. apply (H3 m z); auto. lia.
      * intros y [<-|Hy]; auto.
Qed.
Lemma find_index_some {A} (f : A -> bool) l n :
  find_index f 0 l = Some n <->
  (exists x, nth_error l n = Some x /\ f x = true) /\
  (forall m x, m < n -> nth_error l m = Some x -> f x = false).
Proof.
  pose proof (find_index_spec f l 0) as H. split.
  - intros E. rewrite E, Nat.sub_0_r in H. tauto.
  - intros [[x [Hx Hf]] Hmin]. destruct (find_index f 0 l) as [n'|].
    + rewrite Nat.sub_0_r in H. destruct H as [_ [[y [Hy Hf']] Hmin']].
      f_equal. destruct (Nat.lt_trichotomy n n') as [Hlt|[->|Hlt]]; auto.
      * rewrite (Hmin' _ _ Hlt Hx) in Hf. discriminate.
      * rewrite (Hmin _ _ Hlt Hy) in Hf'. discriminate.
    + rewrite (H x) in Hf; [discriminate|]. eapply nth_error_In; eauto.
Qed.

Lemma ver_eqb_eq a b : ver_eqb a b = true <-> a = b.
Proof.
  destruct a as [[a1 a2] a3], b as [[b1 b2] b3]. cbn. rewrite !Bool.andb_true_iff, !N.eqb_eq.
  split; [intros [[-> ->] ->]; auto|intros E; injection E; auto].
Qed.
Lemma contract_matches_id C c :
  contract_matches C c = true ->
  fc_id c = Some (mkFbCid (Some (cid_name (ct_id C))) (cid_ver (ct_id C))).
Proof.
  unfold contract_matches. destruct (fc_id c) as [[name ver]|]; [|discriminate]. cbn.
  destruct name as [name|]; [|discriminate]. intros H. apply Bool.andb_true_iff in H. destruct H as [H _].
  apply Bool.andb_true_iff in H. destruct H as [H1 H2]. apply string_eqb_eq in H1. apply ver_eqb_eq in H2.
  subst. reflexivity.
Qed.
Lemma find_contract_same fb C C' idx :
  find_serialized_contract fb C = Ok idx -> find_serialized_contract fb C' = Ok idx -> ct_id C = ct_id C'.
Proof.
  unfold find_serialized_contract. destruct (fb_contracts fb) as [l|]; [|discriminate].
  destruct (find_index (contract_matches C) 0 l) as [n|] eqn:E1; [|discriminate].
  destruct (find_index (contract_matches C') 0 l) as [n'|] eqn:E2; [|discriminate]. cbn.
  intros H1 H2. injection H1 as <-. injection H2 as ->.
  apply find_index_some in E1, E2. destruct E1 as [[x [Hx Hm]] _], E2 as [[x' [Hx' Hm']] _].
  rewrite Hx in Hx'. injection Hx' as <-. apply contract_matches_id in Hm, Hm'. rewrite Hm in Hm'.
  injection Hm' as H1 H2. destruct (ct_id C), (ct_id C'); cbn in *. congruence.
Qed.
Lemma find_contract_no_panic fb C : find_serialized_contract fb C <> Panic.
Proof. unfold find_serialized_contract. destruct (fb_contracts fb); [|discriminate]. destruct (find_index _ _ _); discriminate. Qed.

Record dbinv (fb : fb_baseline) (k : baseline_kind) (cs : list contract_inst) (d : builder)
    (s : rstate) (fs fc : index -> list index) : Prop := {
  db_rel : rrel (d_base d) s fs fc;
  db_fb : d_fb d = fb;
  db_kind : b_kind (d_base d) = k;
  db_nty : ci_ty (d_null d) = NullContract;
  db_nmem : rs_mem s (ci_handle (d_null d)) = [d_null_obj d];
  db_nobj : rs_obj s (d_null_obj d) = Some (mkRobj (ci_handle (d_null d)) [] [] timewarp_default true);
  db_con : forall h C, rs_con s h = Some C <-> (h = ci_handle (d_null d) /\ C = NullContract) \/ In (mkCinst C h) cs;
  db_nh : forall c, In c cs -> ci_handle c <> ci_handle (d_null d);
  db_reg : forall idx h, In (idx, h) (d_contracts d) <->
     exists c, In c cs /\ ci_handle c = h /\ find_serialized_contract fb (ci_ty c) = Ok idx;
  db_found : forall c, In c cs -> exists idx, find_serialized_contract fb (ci_ty c) = Ok idx;
  db_bij : bij (d_contracts d);
  db_nodup : NoDup (map ci_handle cs);
  db_mem : forall c o, In c cs -> In o (rs_mem s (ci_handle c)) -> rs_obj s o <> None /\ o <> d_null_obj d
}.

Lemma upd_eq {V} (f : index -> V) k v : upd f k v k = v.
Proof. unfold upd. rewrite index_eqb_refl. reflexivity. Qed.
Lemma upd_neq {V} (f : index -> V) k v k' : k <> k' -> upd f k v k' = f k'.
Proof. unfold upd. destruct (index_eqb_spec k k'); congruence. Qed.

Lemma builder_new_ok fb k :
  exists d s fs fc, builder_new fb k = Ok d /\ dbinv fb k [] d s fs fc /\
    (forall o, rs_obj s o <> None -> o = d_null_obj d).
Proof.
  unfold builder_new.
  destruct (register_contract (baseline_new k) NullContract) as [r b1] eqn:E1.
  destruct (rec_register _ _ _ _ _ _ _ (rrel_empty k) E1) as [[_ [_ [h [C' [Hc _]]]]]|[h [-> [_ [_ [_ [fs1 [fc1 Hr1]]]]]]]].
  { discriminate. }
  assert (Hk1 : b_kind b1 = k).
  { destruct (register_spec (baseline_new k) NullContract (binv_new k)) as [[_ E]|[_ [cs [h' [_ E]]]]]; rewrite E in E1;
      injection E1; intros; subst; reflexivity. }
  destruct (object_create b1 (mkCinst NullContract h) [] []) as [r b2] eqn:E2.
  assert (Hc1 : rs_con (rnext rs_empty (RRegister NullContract) (Ok (YHandle h))) h = Some NullContract).
  { cbn. apply upd_eq. }
  destruct (rec_create _ _ _ _ _ _ _ _ _ _ Hr1 Hc1 (Forall_nil _) E2) as [[_ [_ [o [-> [_ [Hk2 [fs2 [fc2 Hr2]]]]]]]]|[Hne _]].
  2:{ destruct Hne. split; reflexivity. }
  eexists _, (rnext (rnext rs_empty (RRegister NullContract) (Ok (YHandle h)))
                (RCreate NullContract h [] []) (Ok (YHandle o))), fs2, fc2.
  split; [reflexivity|]. split.
  - constructor; [exact Hr2|reflexivity|cbn; congruence|reflexivity|..];
      cbn [d_base d_contracts d_fb d_null d_null_obj ci_handle rnext rs_con rs_mem rs_obj].
    + unfold upd. rewrite !index_eqb_refl. reflexivity.
    + unfold upd. rewrite !index_eqb_refl. reflexivity.
    + intros h' C. unfold upd. destruct (index_eqb_spec h h') as [<-|Hne].
      * split; [intros E; injection E as <-; auto|intros [[_ ->]|[]]; auto].
      * split; [discriminate|intros [[E _]|[]]; congruence].
    + intros c [].
    + intros idx h'. split; [intros []|intros [c [[] _]]].
    + intros c [].
    + apply bij_nil.
    + constructor.
    + intros c o' [].
  - cbn. intros o'. unfold upd. destruct (index_eqb_spec o o'); auto. congruence.
Qed.

Lemma register_kind b C r b' : register_contract b C = (r, b') -> b_kind b' = b_kind b.
Proof.
  unfold register_contract. destruct (existsb _ _); [intros E; injection E as <- <-; auto|].
  destruct (insert _ _) as [[cs h]|e|]; intros E; injection E as <- <-; reflexivity.
Qed.

Lemma builder_register_spec fb k cs d s fs fc C r d' :
  dbinv fb k cs d s fs fc -> builder_register d C = (r, d') ->
  match r with
  | Panic => False
  | Err e => d' = d /\
      (find_serialized_contract fb C = Err e \/
       (is_ok (find_serialized_contract fb C) = true /\ e = EContractAlreadyAdded /\
        exists h C', rs_con s h = Some C' /\ ct_id C' = ct_id C))
  | Ok c => ci_ty c = C /\ is_ok (find_serialized_contract fb C) = true /\
      ~ (exists h C', rs_con s h = Some C' /\ ct_id C' = ct_id C) /\
      d_null d' = d_null d /\ d_null_obj d' = d_null_obj d /\
      exists s' fs' fc', dbinv fb k (cs ++ [c]) d' s' fs' fc' /\ rs_obj s' = rs_obj s
  end.
Proof.
  intros Hd. unfold builder_register. rewrite (db_fb _ _ _ _ _ _ _ Hd).
  destruct (find_serialized_contract fb C) as [idx|e|] eqn:Ef.
  2:{ intros E; injection E as <- <-. split; auto. }
  2:{ exfalso. eapply find_contract_no_panic; eauto. }
  destruct (register_contract (d_base d) C) as [rc b1] eqn:Er.
  pose proof (register_kind _ _ _ _ Er) as Hk.
  destruct (rec_register _ _ _ _ _ _ _ (db_rel _ _ _ _ _ _ _ Hd) Er) as [[-> [-> Hex]]|[h [-> [Hu [Hno [Hnex [fs' [fc' Hr']]]]]]]].
  { intros E; injection E as <- <-. split; [destruct d; reflexivity|]. right. auto. }
  cbn [ci_handle ci_ty].
  assert (Hfresh : bm_fresh Nat.eqb index_eqb idx h (d_contracts d) = true).
  { apply (bm_fresh_true _ _ Nat.eqb_spec index_eqb_spec). intros idx' h' Hin.
    apply (db_reg _ _ _ _ _ _ _ Hd) in Hin. destruct Hin as [c [Hc [<- Hf]]].
    assert (Hcon : rs_con s (ci_handle c) = Some (ci_ty c)).
    { apply (db_con _ _ _ _ _ _ _ Hd). right. destruct c; auto. }
    split; [intros ->|congruence]. apply Hnex. exists (ci_handle c), (ci_ty c). split; auto.
    eapply find_contract_same; eauto. }
  rewrite Hfresh. intros E; injection E as <- <-. cbn [ci_ty]. split; auto. split; auto. split; auto.
  split; auto. split; auto. exists (rnext s (RRegister C) (Ok (YHandle h))), fs', fc'. split; [|reflexivity].
  rewrite (bm_insert_fresh _ _ _ _ _ Hfresh).
  assert (Hnh : h <> ci_handle (d_null d)).
  { intros ->. rewrite (proj2 (db_con _ _ _ _ _ _ _ Hd (ci_handle (d_null d)) NullContract)) in Hno; [discriminate|auto]. }
  assert (Hnew : forall c, In c cs -> ci_handle c <> h).
  { intros c Hc <-. rewrite (proj2 (db_con _ _ _ _ _ _ _ Hd (ci_handle c) (ci_ty c))) in Hno; [discriminate|]. right. destruct c; auto. }
  constructor; cbn [d_base d_fb d_null d_null_obj d_contracts]; auto.
  - rewrite Hk. apply (db_kind _ _ _ _ _ _ _ Hd).
  - apply (db_nty _ _ _ _ _ _ _ Hd).
  - cbn. rewrite upd_neq by auto. apply (db_nmem _ _ _ _ _ _ _ Hd).
  - cbn. apply (db_nobj _ _ _ _ _ _ _ Hd).
  - intros h' C'. cbn. rewrite in_app_iff. cbn. destruct (index_eq_dec h h') as [<-|Hne].
    + rewrite upd_eq. split.
      * intros E; injection E as <-. auto.
      * intros [[E _]|[Hin|[E|[]]]]; [congruence| |injection E as <-; auto].
        destruct (Hnew _ Hin eq_refl).
    + rewrite upd_neq by auto. rewrite (db_con _ _ _ _ _ _ _ Hd). split; [tauto|].
      intros [H|[H|[H|[]]]]; auto. injection H as _ H. congruence.
  - intros c. rewrite in_app_iff. intros [Hin|[<-|[]]]; [apply (db_nh _ _ _ _ _ _ _ Hd); auto|auto].
  - intros idx' h'. rewrite in_app_iff. cbn. rewrite (db_reg _ _ _ _ _ _ _ Hd). split.
    + intros [[c [Hc [He Hf]]]|[E|[]]].
      * exists c. rewrite in_app_iff. auto.
      * injection E as <- <-. exists (mkCinst C h). rewrite in_app_iff. cbn. auto.
    + intros [c [Hc [He Hf]]]. rewrite in_app_iff in Hc. cbn in Hc. destruct Hc as [Hc|[<-|[]]].
      * left. eauto.
      * right. left. cbn in *. congruence.
  - intros c. rewrite in_app_iff. cbn. intros [Hc|[<-|[]]]; [apply (db_found _ _ _ _ _ _ _ Hd); auto|eauto].
  - apply (bij_snoc _ _ Nat.eqb_spec index_eqb_spec); auto. apply (db_bij _ _ _ _ _ _ _ Hd).
  - rewrite map_app. cbn.
    apply (Permutation_NoDup (l := h :: map ci_handle cs)).
    + apply Permutation_cons_append.
    + constructor; [|apply (db_nodup _ _ _ _ _ _ _ Hd)].
      rewrite in_map_iff. intros [c [He Hc]]. apply (Hnew c Hc He).
  - intros c o. rewrite in_app_iff. intros [Hc|[<-|[]]]; cbn.
    + rewrite upd_neq by (intros E; apply (Hnew c Hc); auto). apply (db_mem _ _ _ _ _ _ _ Hd); auto.
    + rewrite upd_eq. intros [].
Qed.

Lemma builds_inv fb k cs d :
  builds fb k cs d -> exists s fs fc, dbinv fb k cs d s fs fc /\ (forall o, rs_obj s o <> None -> o = d_null_obj d).
Proof.
  induction 1 as [d Hn|cs d C c d' Hb IH Hr|cs d C e d' Hb IH Hr].
  - destruct (builder_new_ok fb k) as [d0 [s [fs [fc [E H]]]]]. rewrite E in Hn. injection Hn as <-. eauto.
  - destruct IH as [s [fs [fc [Hd Ho]]]].
    destruct (builder_register_spec _ _ _ _ _ _ _ _ _ _ Hd Hr) as [_ [_ [_ [_ [En [s' [fs' [fc' [Hd' E]]]]]]]]].
    exists s', fs', fc'. split; auto. rewrite E, En. auto.
  - destruct IH as [s [fs [fc [Hd Ho]]]].
    destruct (builder_register_spec _ _ _ _ _ _ _ _ _ _ Hd Hr) as [-> _]. eauto.
Qed.

(** ** Validation *)
Lemma validate_states_ok states : forall idxs ts k,
  length idxs = length ts -> validate_states states k idxs ts = Ok tt ->
  forall i t, nth_error ts i = Some t ->
  exists n fv, nth_error (map N.to_nat idxs) i = Some n /\ nth_error states n = Some fv /\ tag_eq_ptype (p_type fv) t = true.
Proof.
  induction idxs as [|s idxs IH]; intros [|t0 ts] k Hl; cbn in Hl; try discriminate; intros Hv i t Ht.
  - destruct i; discriminate.
  - cbn in Hv. destruct (nth_error states (N.to_nat s)) as [fv|] eqn:Es; [|discriminate].
    destruct (tag_eq_ptype (p_type fv) t0) eqn:Et; [|destruct (variant_named _); discriminate].
    destruct i as [|i]; cbn in Ht |- *.
    + injection Ht as <-. eauto.
    + eapply IH; eauto.
Qed.

Lemma validate_obj_ok fb k cs d s fs fc c j o :
  dbinv fb k cs d s fs fc -> In c cs -> validate_obj d c j = Ok o ->
  buf_object fb j = Some o /\
  (exists idx, find_serialized_contract fb (ci_ty c) = Ok idx /\ buf_contract fb j = Some idx) /\
  length (buf_indices fb j) = length (ct_states (ci_ty c)) /\
  (forall i t, nth_error (ct_states (ci_ty c)) i = Some t ->
     exists n fv, nth_error (buf_indices fb j) i = Some n /\ buf_state fb n = Some fv /\ tag_eq_ptype (p_type fv) t = true).
Proof.
  intros Hd Hc. unfold validate_obj, buf_object, buf_contract, buf_indices, buf_object, buf_state.
  rewrite (db_fb _ _ _ _ _ _ _ Hd).
  destruct (fb_objects fb) as [objs|]; [|discriminate].
  destruct (nth_error objs j) as [o'|]; [|discriminate].
  destruct (bm_right index_eqb (ci_handle c) (d_contracts d)) as [idx|] eqn:Eb; [|discriminate].
  destruct (fo_contract o') as [found|]; [|discriminate].
  destruct (Nat.eqb_spec idx (N.to_nat found)) as [E|]; cbn [negb]; [|discriminate].
  apply (bm_right_in index_eqb index_eqb_spec) in Eb.
  apply (db_reg _ _ _ _ _ _ _ Hd) in Eb. destruct Eb as [c' [Hc' [Eh Hf]]].
  assert (Ec : c' = c).
  { pose proof (proj2 (db_con _ _ _ _ _ _ _ Hd (ci_handle c) (ci_ty c))) as H1.
    pose proof (proj2 (db_con _ _ _ _ _ _ _ Hd (ci_handle c') (ci_ty c'))) as H2.
    destruct c as [C h], c' as [C' h']; cbn in *. subst h'.
    rewrite H1 in H2 by auto. f_equal.
    assert (H3 : Some C = Some C') by (apply H2; auto). congruence. }
  subst c'.
  destruct (fo_states o') as [l|].
  - destruct (Nat.eqb_spec (length l) (length (ct_states (ci_ty c)))) as [El|]; cbn [negb]; [|discriminate].
    destruct (fb_states fb) as [states|]; [|discriminate].
    destruct (validate_states states 0 l (ct_states (ci_ty c))) as [[]|e|] eqn:Ev; try discriminate.
    intros H; injection H as <-. split; auto. split; [exists idx; split; auto; cbn; congruence|].
    split; [rewrite map_length; auto|]. intros i t Ht. eapply validate_states_ok; eauto.
  - destruct (Nat.eqb_spec 0 (length (ct_states (ci_ty c)))) as [El|]; cbn [negb]; [|discriminate].
    intros H; injection H as <-. split; auto. split; [exists idx; split; auto; cbn; congruence|].
    split; [cbn; auto|]. intros i t Ht. apply nth_error_lt in Ht. lia.
Qed.

(** ** Building the properties of one object *)
Definition refs_ok (fb : fb_baseline) (refs : list (nat * nat)) : Prop :=
  forall n oi, In (n, oi) refs -> exists j, buf_state fb n = Some (FObjectHandle j) /\ oi = N.to_nat j.

Lemma decode_ref contracts fv oi :
  decode contracts fv = Ok (DRef oi) -> exists j, fv = FObjectHandle j /\ oi = N.to_nat j.
Proof.
  destruct fv as [| | | | | | | | | | |v| | | |]; cbn; try discriminate.
  - destruct v; discriminate.
  - intros E; injection E as <-. eauto.
  - destruct (bm_left _ _ _); discriminate.
Qed.

Lemma refs_in_keys (refs : list (nat * nat)) n :
  existsb (fun p => Nat.eqb (fst p) n) refs = true <-> In n (map fst refs).
Proof.
  rewrite existsb_exists, in_map_iff. split.
  - intros [p [Hin E]]. apply Nat.eqb_eq in E. eauto.
  - intros [p [E Hin]]. exists p. split; auto. apply Nat.eqb_eq; auto.
Qed.

Definition null_ref (d : builder) : dynprop := PPrim (VObjectHandle (d_null_obj d)).

Record props_built (fb : fb_baseline) (d : builder) (refs : list (nat * nat)) (l : list (prop_id * N))
    (ps : list dynprop) (ns : list (prop_id * nat)) (refs' : list (nat * nat)) : Prop := {
  pb_len : length ps = length l;
  pb_val : forall i id n, nth_error l i = Some (id, n) -> exists fv v,
     buf_state fb (N.to_nat n) = Some fv /\ nth_error ps i = Some v /\
     (decode (d_contracts d) fv = Ok (DVal v) \/
      exists oi, decode (d_contracts d) fv = Ok (DRef oi) /\ v = null_ref d /\
        In (id, N.to_nat n) ns /\ In (N.to_nat n, oi) refs');
  pb_ns : forall id n, In (id, n) ns -> (exists n', In (id, n') l /\ N.to_nat n' = n) /\
     pid_type id = TPrim TObjectHandle /\ In n (map fst refs') /\ ~ In n (map fst refs);
  pb_nodup : NoDup (map snd ns);
  pb_nodup_id : NoDup (map fst l) -> NoDup (map fst ns)
}.

Lemma build_props_spec fb d : d_fb d = fb -> forall l refs r refs',
  refs_ok fb refs -> build_props d refs l = (r, refs') ->
  refs_ok fb refs' /\ incl refs refs' /\
  forall ps ns, r = Ok (ps, ns) -> props_built fb d refs l ps ns refs'.
Proof.
  intros Hfb. induction l as [|[id n] l IH]; intros refs r refs' Hok; cbn -[existsb].
  - intros E; injection E as <- <-. split; auto. split; [apply incl_refl|].
    intros ps ns E; injection E as <- <-. constructor; cbn; auto; try (intros; constructor; fail); try tauto.
    + intros [|i]; discriminate.
  - rewrite Hfb. destruct (fb_states fb) as [states|] eqn:Efs.
    2:{ intros E; injection E as <- <-. repeat split; auto using incl_refl; discriminate. }
    destruct (nth_error states (N.to_nat n)) as [fv|] eqn:Efv.
    2:{ intros E; injection E as <- <-. repeat split; auto using incl_refl; discriminate. }
    assert (Hbuf : buf_state fb (N.to_nat n) = Some fv) by (unfold buf_state; rewrite Efs; auto).
    destruct (decode (d_contracts d) fv) as [[p|oi]|e|] eqn:Ed.
    3, 4: intros E; injection E as <- <-; repeat split; auto using incl_refl; discriminate.
    + destruct (build_props d refs l) as [r1 refs1] eqn:Eb.
      destruct (IH _ _ _ Hok Eb) as [H1 [H2 H3]].
      intros E.
      assert (Er : refs' = refs1 /\ forall ps ns, r = Ok (ps, ns) -> exists ps', ps = p :: ps' /\ r1 = Ok (ps', ns)).
      { destruct r1 as [[ps1 ns1]|e|]; injection E as <- <-; split; auto; try discriminate.
        intros ps ns E; injection E as <- <-. eauto. }
      destruct Er as [-> Er]. split; auto. split; auto.
      intros ps ns Hr. destruct (Er _ _ Hr) as [ps' [-> Hr1]]. specialize (H3 _ _ Hr1).
      constructor.
      * cbn. f_equal. apply H3.
      * intros [|i] id' n' Hn; cbn in Hn.
        -- injection Hn as <- <-. exists fv, p. auto.
        -- apply (pb_val _ _ _ _ _ _ _ H3 i id' n' Hn).
      * intros id' n' Hin. destruct (pb_ns _ _ _ _ _ _ _ H3 _ _ Hin) as [[n'' [Ha Hb]] Hc].
        split; auto. exists n''. split; auto. right; auto.
      * apply H3.
      * cbn. intros Hnd. apply H3. inversion Hnd; auto.
    + destruct (existsb (fun p => Nat.eqb (fst p) (N.to_nat n)) refs) eqn:Eex.
      { intros E; injection E as <- <-. repeat split; auto using incl_refl; discriminate. }
      assert (Hnin : ~ In (N.to_nat n) (map fst refs)).
      { rewrite <- refs_in_keys, Eex. discriminate. }
      destruct (decode_ref _ _ _ Ed) as [j [-> ->]].
      assert (Hok1 : refs_ok fb (refs ++ [(N.to_nat n, N.to_nat j)])).
      { intros n' oi' Hin. apply in_app_or in Hin. destruct Hin as [Hin|[Hin|[]]]; [auto|].
        injection Hin as <- <-. eauto. }
      destruct (ptype_eqb_spec (pid_type id) (TPrim TObjectHandle)) as [Ety|Ety]; cbn [negb].
      2:{ intros E; injection E as <- <-. split; auto. split; [apply incl_appl, incl_refl|discriminate]. }
      destruct (build_props d (refs ++ [(N.to_nat n, N.to_nat j)]) l) as [r1 refs1] eqn:Eb.
      destruct (IH _ _ _ Hok1 Eb) as [H1 [H2 H3]].
      intros E.
      assert (Er : refs' = refs1 /\ forall ps ns, r = Ok (ps, ns) ->
                exists ps' ns', ps = null_ref d :: ps' /\ ns = (id, N.to_nat n) :: ns' /\ r1 = Ok (ps', ns')).
      { destruct r1 as [[ps1 ns1]|e|]; injection E as <- <-; split; auto; try discriminate.
        intros ps ns E; injection E as <- <-. eauto 6. }
      destruct Er as [-> Er]. split; auto. split.
      { intros x Hx. apply H2, in_or_app. auto. }
      intros ps ns Hr. destruct (Er _ _ Hr) as [ps' [ns' [-> [-> Hr1]]]]. specialize (H3 _ _ Hr1).
      assert (Hself : In (N.to_nat n, N.to_nat j) refs1).
      { apply H2, in_or_app. right; left; auto. }
      constructor.
      * cbn. f_equal. apply H3.
      * intros [|i] id' n' Hn; cbn in Hn.
        -- injection Hn as <- <-. exists (FObjectHandle j), (null_ref d). split; auto. split; auto.
           right. exists (N.to_nat j). cbn. auto.
        -- destruct (pb_val _ _ _ _ _ _ _ H3 i id' n' Hn) as [fv [v [Ha [Hb Hc]]]].
           exists fv, v. split; auto. split; auto. destruct Hc as [Hc|[oi [Hc1 [Hc2 [Hc3 Hc4]]]]]; [auto|].
           right. exists oi. cbn. auto.
      * intros id' n' [Hin|Hin].
        -- injection Hin as <- <-. split; [exists n; cbn; auto|]. split; auto. split; auto.
           apply in_map_iff. exists (N.to_nat n, N.to_nat j). auto.
        -- destruct (pb_ns _ _ _ _ _ _ _ H3 _ _ Hin) as [[n'' [Ha Hb]] [Hc [Hd He]]].
           split; [exists n''; split; auto; right; auto|]. split; auto. split; auto.
           rewrite map_app, in_app_iff in He. tauto.
      * cbn. constructor; [|apply H3]. rewrite in_map_iff. intros [[id' n'] [En Hin]]. cbn in En. subst n'.
        destruct (pb_ns _ _ _ _ _ _ _ H3 _ _ Hin) as [_ [_ [_ He]]]. apply He.
        rewrite map_app, in_app_iff. cbn. auto.
      * cbn. intros Hnd. inversion Hnd as [|x y Hx Hy]; subst. constructor; [|apply H3; auto].
        rewrite in_map_iff. intros [[id' n'] [En Hin]]. cbn in En. subst id'.
        destruct (pb_ns _ _ _ _ _ _ _ H3 _ _ Hin) as [[n'' [Ha Hb]] _]. apply Hx.
        apply in_map_iff. exists (id, n''). auto.
Qed.

(** ** Tracking the null states *)
Record same_but_bound (s s' : rstate) : Prop := {
  sb_con : rs_con s' = rs_con s;
  sb_mem : rs_mem s' = rs_mem s;
  sb_obj : rs_obj s' = rs_obj s;
  sb_bound : incl (rs_bound s) (rs_bound s')
}.
Lemma same_but_bound_refl s : same_but_bound s s.
Proof. constructor; auto using incl_refl. Qed.
Lemma same_but_bound_live s s' o : same_but_bound s s' -> live_obj s' o = live_obj s o.
Proof. intros H. unfold live_obj. rewrite (sb_obj _ _ H). reflexivity. Qed.

Notation tobj := (TPrim TObjectHandle).

Lemma track_nulls_spec b C h o ro fs fc : forall ns s st,
  rrel b s fs fc -> rs_con s h = Some C -> live_obj s o = Some ro -> ro_contract ro = h ->
  (forall id n, In (id, n) ns -> exists i, id = mkPid tobj i h /\ nth_error (ct_states C) i = Some tobj) ->
  NoDup (map fst ns) -> NoDup (map snd ns) ->
  (forall n sh, In (n, sh) st -> ~ In n (map snd ns) /\
     exists o' i', is_bound (rs_bound s) tobj sh o' i' /\ forall id, In id (map fst ns) -> (o', i') <> (o, pid_idx id)) ->
  bij st ->
  exists st' s', track_nulls b o ns st = (Ok tt, st ++ st') /\ rrel b s' fs fc /\ same_but_bound s s' /\
    bij (st ++ st') /\
    (forall id n, In (id, n) ns -> exists sh, In (n, sh) st' /\ is_bound (rs_bound s') tobj sh o (pid_idx id)) /\
    (forall n sh, In (n, sh) st' -> exists id, In (id, n) ns /\ is_bound (rs_bound s') tobj sh o (pid_idx id)).
Proof.
  induction ns as [|[id n] ns IH]; intros s st Hr Hc Hl Hrc Hns Hnd1 Hnd2 Hst Hbij.
  - exists [], s. cbn. rewrite app_nil_r.
    split; auto. split; auto. split; [apply same_but_bound_refl|]. split; auto. split; intros ? ? [].
  - destruct (Hns id n (or_introl eq_refl)) as [i [-> Hi]].
    destruct (rec_bind _ _ _ _ _ _ _ _ _ _ Hr Hc Hl Hrc Hi) as [sh [v [E1 [E2 [E3 [E4 [_ Hr1]]]]]]].
    cbn [track_nulls]. rewrite E1.
    cbn in Hnd1, Hnd2. inversion Hnd1 as [|x1 y1 Hx1 Hy1]; subst x1 y1. inversion Hnd2 as [|x2 y2 Hx2 Hy2]; subst x2 y2.
    assert (Hfr : bm_fresh Nat.eqb index_eqb n sh st = true).
    { apply (bm_fresh_true _ _ Nat.eqb_spec index_eqb_spec). intros n' sh' Hin.
      destruct (Hst _ _ Hin) as [Hn [o' [i' [Hb Hne]]]]. cbn in Hn. split; [intros ->; tauto|].
      intros ->. apply (Hne (mkPid tobj i h) (or_introl eq_refl)). cbn.
      destruct (rr_bound _ _ _ _ Hr _ _ _ _ Hb) as [ro' [v' [Ho' [Hv' [Ht' Hf']]]]].
      destruct (live_obj_some _ _ _ Hl) as [Ho _].
      destruct (ce_inj _ _ _ _ (rr_st _ _ _ _ Hr) o' (ro_vals ro') i' v' o (ro_vals ro) i v sh) as [-> ->]; auto;
        try (rewrite ?Ho, ?Ho'; reflexivity). congruence. }
    rewrite Hfr, (bm_insert_fresh _ _ _ _ _ Hfr).
    set (s1 := rnext s (RBind C h i o) (Ok (YBound tobj sh))) in *.
    assert (Hsb : same_but_bound s s1) by (constructor; auto; cbn; apply incl_tl, incl_refl).
    destruct (IH s1 (st ++ [(n, sh)])) as [st' [s' [F1 [F2 [F3 [F4 [F5 F6]]]]]]]; auto.
    + intros id' n' Hin. apply (Hns id' n'). right; auto.
    + intros n' sh' Hin. apply in_app_or in Hin. destruct Hin as [Hin|[Hin|[]]].
      * destruct (Hst _ _ Hin) as [Hn [o' [i' [Hb Hne]]]]. cbn in Hn. split; [tauto|].
        exists o', i'. split; [right; auto|]. intros id' Hid. apply Hne. right; auto.
      * injection Hin as <- <-. split; auto. exists o, i. split; [left; auto|].
        intros id' Hid E. injection E as E. apply Hx1.
        apply in_map_iff in Hid. destruct Hid as [[id'' n''] [E' Hin']]. cbn in E'. subst id''.
        destruct (Hns id' n'' (or_intror Hin')) as [i'' [-> _]]. cbn in E. subst i''.
        apply in_map_iff. exists (mkPid tobj i h, n''). auto.
    + apply (bij_snoc _ _ Nat.eqb_spec index_eqb_spec); auto.
    + exists ((n, sh) :: st'), s'.
      assert (Eapp : (st ++ [(n, sh)]) ++ st' = st ++ (n, sh) :: st') by (rewrite <- app_assoc; reflexivity).
      rewrite Eapp in F1, F4. split; auto. split; auto. split.
      { destruct F3 as [G1 G2 G3 G4]. constructor; try (etransitivity; eauto; fail).
        intros x Hx. apply G4. right; auto. }
      split; auto.
      assert (Hb1 : is_bound (rs_bound s') tobj sh o i).
      { apply (sb_bound _ _ F3). left; auto. }
      split.
      * intros id' n' [Hin|Hin].
        -- injection Hin as <- <-. exists sh. split; [left; auto|auto].
        -- destruct (F5 _ _ Hin) as [sh' [Ha Hb]]. exists sh'. split; [right; auto|auto].
      * intros n' sh' [Hin|Hin].
        -- injection Hin as <- <-. exists (mkPid tobj i h). split; [left; auto|auto].
        -- destruct (F6 _ _ Hin) as [id' [Ha Hb]]. exists id'. split; [right; auto|auto].
Qed.

(** ** One object *)
Lemma nth_error_combine {A B} (l : list A) : forall (m : list B) i,
  nth_error (combine l m) i =
  match nth_error l i, nth_error m i with Some a, Some b => Some (a, b) | _, _ => None end.
Proof.
  induction l as [|a l IH]; intros [|b m] [|i]; cbn; auto.
  - destruct (nth_error l i); reflexivity.
Qed.

Lemma decode_val_type contracts fv t v :
  tag_eq_ptype (p_type fv) t = true -> decode contracts fv = Ok (DVal v) -> prop_type v = t.
Proof.
  intros Ht. destruct fv as [| | | | | | | | | | |os| | | |]; cbn in Ht |- *; try discriminate;
    try (intros E; injection E as <-; destruct t as [q|q]; try discriminate; destruct q; try discriminate; reflexivity).
  - destruct os; [|discriminate]. intros E; injection E as <-.
    destruct t as [q|q]; try discriminate; destruct q; try discriminate; reflexivity.
  - destruct (bm_left _ _ _); [|discriminate]. intros E; injection E as <-.
    destruct t as [q|q]; try discriminate; destruct q; try discriminate; reflexivity.
Qed.
Lemma decode_ref_type contracts fv t oi :
  tag_eq_ptype (p_type fv) t = true -> decode contracts fv = Ok (DRef oi) -> t = tobj.
Proof.
  intros Ht Hd. apply decode_ref in Hd. destruct Hd as [j [-> _]]. cbn in Ht.
  destruct t as [q|q]; try discriminate; destruct q; try discriminate; reflexivity.
Qed.

(** What field [i] of the object [o] made from a buffer field [n] holds before
    [finish]: the decoded value, or the null object, to be restored. *)
Definition fld (d : deser) (s : rstate) (o : index) (i n : nat) (fv : fbval) (v : dynprop) : Prop :=
  decode (d_contracts (ds_b d)) fv = Ok (DVal v) \/
  exists oi sh, decode (d_contracts (ds_b d)) fv = Ok (DRef oi) /\ v = null_ref (ds_b d) /\
    In (n, oi) (ds_refs d) /\ In (n, sh) (ds_states d) /\ is_bound (rs_bound s) tobj sh o i.

(** The object [o] was made from buffer object [j]. *)
Definition made_from (fb : fb_baseline) (cs : list contract_inst) (s : rstate) (o : index) (j : nat)
    (F : nat -> nat -> fbval -> dynprop -> Prop) : Prop :=
  exists c ro idx, In c cs /\ rs_obj s o = Some ro /\ ro_live ro = true /\ ro_contract ro = ci_handle c /\
    ro_warp ro = timewarp_default /\ ro_chans ro = [] /\
    find_serialized_contract fb (ci_ty c) = Ok idx /\ buf_contract fb j = Some idx /\
    length (buf_indices fb j) = length (ro_vals ro) /\
    forall i v, nth_error (ro_vals ro) i = Some v ->
      exists n fv, nth_error (buf_indices fb j) i = Some n /\ buf_state fb n = Some fv /\ F i n fv v.

Record dinv (fb : fb_baseline) (k : baseline_kind) (cs : list contract_inst) (d : deser)
    (s : rstate) (fs fc : index -> list index) : Prop := {
  di_b : dbinv fb k cs (ds_b d) s fs fc;
  di_obj : forall o, rs_obj s o <> None -> o = d_null_obj (ds_b d) \/ exists j, In (o, j) (ds_objects d);
  di_made : forall o j, In (o, j) (ds_objects d) ->
     o <> d_null_obj (ds_b d) /\ made_from fb cs s o j (fld d s o);
  di_bij : bij (ds_objects d);
  di_refs : refs_ok fb (ds_refs d);
  di_st : forall n sh, In (n, sh) (ds_states d) -> In n (map fst (ds_refs d)) /\
     exists o i j, In (o, j) (ds_objects d) /\ nth_error (buf_indices fb j) i = Some n /\
       is_bound (rs_bound s) tobj sh o i;
  di_stbij : bij (ds_states d)
}.

Lemma state_ids_nodup C h : NoDup (state_ids C h).
Proof.
  apply NoDup_nth_error. intros i j Hi E.
  assert (Hl : i < length (state_ids C h)) by auto. apply nth_error_Some in Hl.
  rewrite !state_ids_nth in *.
  destruct (nth_error (ct_states C) i) as [t|]; cbn in Hl; [|congruence].
  destruct (nth_error (ct_states C) j) as [t'|]; cbn in E; [|discriminate]. congruence.
Qed.
Lemma NoDup_map_fst_combine {A B} (l : list A) : forall (m : list B), NoDup l -> NoDup (map fst (combine l m)).
Proof.
  induction l as [|a l IH]; intros [|b m] H; cbn; try constructor.
  - intros Hin. apply in_map_iff in Hin. destruct Hin as [[a' b'] [E Hin]]. cbn in E. subst a'.
    apply in_combine_l in Hin. inversion H; auto.
  - apply IH. inversion H; auto.
Qed.

Lemma dinv_more_refs fb k cs d s fs fc refs' :
  dinv fb k cs d s fs fc -> refs_ok fb refs' -> incl (ds_refs d) refs' ->
  dinv fb k cs (mkDeser (ds_b d) (ds_states d) refs' (ds_objects d)) s fs fc.
Proof.
  intros [H1 H2 H3 H4 H5 H6 H7] Hok Hincl. constructor; cbn [ds_b ds_states ds_refs ds_objects]; auto.
  - intros o j Hin. destruct (H3 _ _ Hin) as [Hn [c [ro [idx [A1 [A2 [A3 [A4 [A5 [A6 [A7 [A8 [A9 A10]]]]]]]]]]]]].
    split; auto. exists c, ro, idx. repeat (split; [assumption|]).
    intros i v Hv. destruct (A10 _ _ Hv) as [n [fv [B1 [B2 B3]]]]. exists n, fv. split; auto. split; auto.
    destruct B3 as [B3|[oi [sh [B3 [B4 [B5 B6]]]]]]; [left; auto|right]. exists oi, sh. cbn. auto.
  - intros n sh Hin. destruct (H6 _ _ Hin) as [Ha Hb]. split; auto.
    apply in_map_iff in Ha. destruct Ha as [p [E Hp]]. apply in_map_iff. exists p. auto.
Qed.

(** A freshly made object does not disturb the others. *)
Lemma live_new s C h vs cs o : live_obj (rnext s (RCreate C h vs cs) (Ok (YHandle o))) o =
  Some (mkRobj h vs cs timewarp_default true).
Proof. unfold live_obj. cbn. rewrite upd_eq. reflexivity. Qed.

Lemma with_base_same d : with_base d (d_base d) = d.
Proof. destruct d; reflexivity. Qed.

Lemma create_dbinv fb k cs d s fs fc c vs o b1 fs1 fc1 :
  dbinv fb k cs d s fs fc -> In c cs -> rs_obj s o = None -> b_kind b1 = b_kind (d_base d) ->
  rrel b1 (rnext s (RCreate (ci_ty c) (ci_handle c) vs []) (Ok (YHandle o))) fs1 fc1 ->
  dbinv fb k cs (with_base d b1) (rnext s (RCreate (ci_ty c) (ci_handle c) vs []) (Ok (YHandle o))) fs1 fc1.
Proof.
  intros H Hc Ho Hk Hr. destruct H as [A1 A2 A3 A4 A5 A6 A7 A8 A9 A10 A11 A12 A13].
  pose proof (A8 _ Hc) as Hnh.
  constructor; cbn [with_base d_base d_fb d_null d_null_obj d_contracts]; auto.
  - congruence.
  - cbn. rewrite upd_neq by auto. auto.
  - cbn. rewrite upd_neq; auto. congruence.
  - intros c' o' Hc'. cbn. destruct (index_eq_dec (ci_handle c) (ci_handle c')) as [E|E].
    + rewrite E, upd_eq, in_app_iff. intros [Hin|[<-|[]]].
      * destruct (A13 _ _ Hc' Hin) as [H1 H2]. split; auto. rewrite upd_neq; auto. congruence.
      * rewrite upd_eq. split; [discriminate|congruence].
    + rewrite upd_neq by auto. intros Hin. destruct (A13 _ _ Hc' Hin) as [H1 H2]. split; auto. rewrite upd_neq; auto. congruence.
Qed.

Lemma same_but_bound_dbinv fb k cs d s s' fs fc :
  dbinv fb k cs d s fs fc -> same_but_bound s s' -> rrel (d_base d) s' fs fc -> dbinv fb k cs d s' fs fc.
Proof.
  intros [A1 A2 A3 A4 A5 A6 A7 A8 A9 A10 A11 A12 A13] [B1 B2 B3 B4] Hr.
  constructor; rewrite ?B1, ?B2, ?B3; auto.
Qed.

Lemma rs_con_of fb k cs d s fs fc c :
  dbinv fb k cs d s fs fc -> In c cs -> rs_con s (ci_handle c) = Some (ci_ty c).
Proof. intros H Hc. apply (db_con _ _ _ _ _ _ _ H). right. destruct c; auto. Qed.

Definition obj_idxs (o : fb_object) : list N := match fo_states o with Some l => l | None => [] end.
Lemma obj_idxs_buf fb j o : buf_object fb j = Some o -> buf_indices fb j = map N.to_nat (obj_idxs o).
Proof. unfold buf_indices, obj_idxs. intros ->. destruct (fo_states o); reflexivity. Qed.

Lemma deserialize_obj_spec fb k cs d s fs fc c j o r d' :
  dinv fb k cs d s fs fc -> In c cs -> validate_obj (ds_b d) c j = Ok o ->
  deserialize_obj d c j o = (r, d') ->
  d_contracts (ds_b d') = d_contracts (ds_b d) /\
  match r with
  | Panic => True
  | Err e => exists s' fs' fc', dinv fb k cs d' s' fs' fc' /\ ds_objects d' = ds_objects d
  | Ok _ => exists s' fs' fc' oh, dinv fb k cs d' s' fs' fc' /\ ds_objects d' = ds_objects d ++ [(oh, j)]
  end.
Proof.
  intros Hd Hc Hv. pose proof (di_b _ _ _ _ _ _ _ Hd) as Hb.
  destruct (validate_obj_ok _ _ _ _ _ _ _ _ _ _ Hb Hc Hv) as [Hbo [[cidx [Hfind Hbc]] [Hlen Hty]]].
  pose proof (obj_idxs_buf _ _ _ Hbo) as Hidx.
  assert (Hlen' : length (obj_idxs o) = length (ct_states (ci_ty c))).
  { rewrite Hidx, map_length in Hlen. auto. }
  unfold deserialize_obj. fold (obj_idxs o).
  assert (Hsane : (match fo_states o with Some l => negb (Nat.eqb (length l) (length (ct_states (ci_ty c)))) | None => false end) = false).
  { unfold obj_idxs in Hlen'. destruct (fo_states o); auto. rewrite Hlen', Nat.eqb_refl. reflexivity. }
  rewrite Hsane.
  set (l := combine (state_ids (ci_ty c) (ci_handle c)) (obj_idxs o)).
  destruct (build_props (ds_b d) (ds_refs d) l) as [rb refs] eqn:Eb.
  destruct (build_props_spec fb (ds_b d) (db_fb _ _ _ _ _ _ _ Hb) _ _ _ _ (di_refs _ _ _ _ _ _ _ Hd) Eb) as [Hrok [Hincl Hbuilt]].
  pose proof (dinv_more_refs _ _ _ _ _ _ _ _ Hd Hrok Hincl) as Hd1.
  destruct rb as [[ps ns]|e|].
  2:{ intros E; injection E as <- <-. split; auto. exists s, fs, fc. auto. }
  2:{ intros E; injection E as <- <-. split; auto. }
  specialize (Hbuilt _ _ eq_refl).
  destruct (object_create (d_base (ds_b d)) c ps []) as [ro' b1] eqn:Ec.
  assert (Ec' : object_create (d_base (ds_b d)) (mkCinst (ci_ty c) (ci_handle c)) ps [] = (ro', b1)).
  { destruct c; auto. }
  destruct (rec_create _ _ _ _ _ _ _ _ _ _ (db_rel _ _ _ _ _ _ _ Hb) (rs_con_of _ _ _ _ _ _ _ _ Hb Hc) (Forall_nil _) Ec')
    as [[Hpt [Hct [oh [-> [Hno [Hk [fs1 [fc1 Hr1]]]]]]]]|[_ [-> [e ->]]]].
  2:{ intros E; injection E as <- <-. cbn [ds_b]. split; auto.
      exists s, fs, fc. split; auto. rewrite with_base_same. auto. }
  set (s1 := rnext s (RCreate (ci_ty c) (ci_handle c) ps []) (Ok (YHandle oh))) in *.
  pose proof (create_dbinv _ _ _ _ _ _ _ _ _ _ _ _ _ Hb Hc Hno Hk Hr1) as Hb1. fold s1 in Hb1.
  assert (Hlive : live_obj s1 oh = Some (mkRobj (ci_handle c) ps [] timewarp_default true)) by apply live_new.
  (* positions of l *)
  assert (Hl : forall i id n, nth_error l i = Some (id, n) -> exists t, nth_error (ct_states (ci_ty c)) i = Some t /\
              id = mkPid t i (ci_handle c) /\ nth_error (buf_indices fb j) i = Some (N.to_nat n)).
  { intros i id n Hi. unfold l in Hi. rewrite nth_error_combine, state_ids_nth in Hi.
    destruct (nth_error (ct_states (ci_ty c)) i) as [t|]; cbn in Hi; [|discriminate].
    destruct (nth_error (obj_idxs o) i) as [n'|] eqn:En; [|discriminate]. injection Hi as <- <-.
    exists t. split; auto. split; auto. rewrite Hidx, nth_error_map, En. reflexivity. }
  assert (Hns : forall id n, In (id, n) ns -> exists i, id = mkPid tobj i (ci_handle c) /\
     nth_error (ct_states (ci_ty c)) i = Some tobj /\ nth_error (buf_indices fb j) i = Some n).
  { intros id n Hin. destruct (pb_ns _ _ _ _ _ _ _ Hbuilt _ _ Hin) as [[n' [Hin' <-]] [Ht _]].
    apply In_nth_error in Hin'. destruct Hin' as [i Hi]. destruct (Hl _ _ _ Hi) as [t [H1 [H2 H3]]].
    subst id. cbn in Ht. subst t. exists i. auto. }
  assert (Hpres : forall o', rs_obj s o' <> None -> rs_obj s1 o' = rs_obj s o' /\ o' <> oh).
  { intros o' Ho'. assert (o' <> oh) by congruence. split; auto. cbn. apply upd_neq. auto. }
  destruct (track_nulls_spec b1 (ci_ty c) (ci_handle c) oh (mkRobj (ci_handle c) ps [] timewarp_default true) fs1 fc1 ns s1
      (ds_states d) Hr1) as
    [st' [s2 [Et [Hr2 [Hsb [Hbij2 [Hf5 Hf6]]]]]]]; auto.
  { apply (rs_con_of _ _ _ _ _ _ _ _ Hb Hc). }
  { intros id n Hin. destruct (Hns _ _ Hin) as [i [H1 [H2 _]]]. eauto. }
  { apply (pb_nodup_id _ _ _ _ _ _ _ Hbuilt). apply NoDup_map_fst_combine, state_ids_nodup. }
  { apply (pb_nodup _ _ _ _ _ _ _ Hbuilt). }
  { intros n sh Hin. destruct (di_st _ _ _ _ _ _ _ Hd _ _ Hin) as [Hkey [o' [i [j' [Ho' [_ Hbd]]]]]]. split.
    - intros Hin2. apply in_map_iff in Hin2. destruct Hin2 as [[id n'] [E Hin2]]. cbn in E. subst n'.
      destruct (pb_ns _ _ _ _ _ _ _ Hbuilt _ _ Hin2) as [_ [_ [_ Hnk]]]. auto.
    - exists o', i. split; auto. intros id _ E. injection E as -> _.
      destruct (rr_bound _ _ _ _ (db_rel _ _ _ _ _ _ _ Hb) _ _ _ _ Hbd) as [ro2 [v2 [Ho2 _]]]. congruence. }
  { apply (di_stbij _ _ _ _ _ _ _ Hd). }
  rewrite Et.
  destruct (bm_fresh index_eqb Nat.eqb oh j (ds_objects d)) eqn:Efr.
  2:{ intros E; injection E as <- <-. split; auto. }
  rewrite (bm_insert_fresh _ _ _ _ _ Efr).
  intros E; injection E as <- <-. cbn [ds_b d_contracts with_base]. split; auto.
  exists s2, fs1, fc1, oh. cbn [ds_objects]. split; auto.
  pose proof (sb_obj _ _ Hsb) as Eobj.
  constructor; cbn [ds_b ds_states ds_refs ds_objects].
  - eapply same_but_bound_dbinv; eauto.
  - intros o'. rewrite Eobj. cbn [with_base d_null_obj]. destruct (index_eq_dec oh o') as [<-|Hne].
    + intros _. right. exists j. apply in_or_app. right; left; auto.
    + cbn. rewrite upd_neq by auto. intros Ho'. destruct (di_obj _ _ _ _ _ _ _ Hd _ Ho') as [H|[j' H]]; auto.
      right. exists j'. apply in_or_app. auto.
  - cbn [with_base d_null_obj]. intros o' j' Hin. apply in_app_or in Hin. destruct Hin as [Hin|[Hin|[]]].
    + destruct (di_made _ _ _ _ _ _ _ Hd1 _ _ Hin) as [Hn [c' [ro [idx [A1 [A2 [A3 [A4 [A5 [A6 [A7 [A8 [A9 A10]]]]]]]]]]]]].
      cbn [ds_b ds_objects] in *. split; auto. exists c', ro, idx. rewrite Eobj.
      destruct (Hpres o') as [Ep _]; [congruence|]. rewrite Ep.
      repeat (split; [assumption|]).
      intros i v Hiv. destruct (A10 _ _ Hiv) as [n [fv [B1 [B2 B3]]]]. exists n, fv. split; auto. split; auto.
      destruct B3 as [B3|[oi [sh [B3 [B4 [B5 [B6 B7]]]]]]]; [left; auto|right]. exists oi, sh.
      cbn [ds_b ds_states ds_refs with_base d_contracts] in *. split; auto. split; auto. split; auto.
      split; [apply in_or_app; auto|]. apply (sb_bound _ _ Hsb). auto.
    + injection Hin as <- <-. split.
      { intros ->. rewrite (db_nobj _ _ _ _ _ _ _ Hb) in Hno. discriminate. }
      exists c, (mkRobj (ci_handle c) ps [] timewarp_default true), cidx.
      assert (Eo : rs_obj s2 oh = Some (mkRobj (ci_handle c) ps [] timewarp_default true)).
      { rewrite Eobj. cbn. apply upd_eq. }
      cbn [ro_live ro_contract ro_warp ro_chans ro_vals].
      repeat (split; [solve [auto]|]).
      assert (Hpl : length ps = length (ct_states (ci_ty c))) by (rewrite <- Hpt, map_length; auto).
      split; [congruence|].
      intros i v Hiv.
      assert (Hi : i < length (ct_states (ci_ty c))) by (apply nth_error_lt in Hiv; lia).
      destruct (nth_error l i) as [[id n]|] eqn:Eli.
      2:{ exfalso. apply nth_error_None in Eli. unfold l in Eli. rewrite combine_length in Eli.
          assert (length (state_ids (ci_ty c) (ci_handle c)) = length (ct_states (ci_ty c))).
          { unfold state_ids. rewrite iter_collect_ids, ids_from_length. lia. }
          lia. }
      destruct (Hl _ _ _ Eli) as [t [H1 [H2 H3]]].
      destruct (pb_val _ _ _ _ _ _ _ Hbuilt _ _ _ Eli) as [fv [v' [G1 [G2 G3]]]].
      rewrite Hiv in G2. injection G2 as <-.
      exists (N.to_nat n), fv. split; auto. split; auto.
      destruct G3 as [G3|[oi [G3 [G4 [G5 G6]]]]]; [left; auto|right].
      destruct (Hf5 _ _ G5) as [sh [K1 K2]]. exists oi, sh.
      cbn [ds_b ds_states ds_refs with_base d_contracts]. split; auto. split; [auto|]. split; auto.
      split; [apply in_or_app; auto|]. rewrite H2 in K2. exact K2.
  - apply (bij_snoc _ _ index_eqb_spec Nat.eqb_spec); auto. apply (di_bij _ _ _ _ _ _ _ Hd).
  - auto.
  - intros n sh Hin. apply in_app_or in Hin. destruct Hin as [Hin|Hin].
    + destruct (di_st _ _ _ _ _ _ _ Hd1 _ _ Hin) as [Hkey [o' [i [j' [Ho' [Hx Hbd]]]]]].
      cbn [ds_refs ds_objects] in *. split; auto.
      exists o', i, j'. split; [apply in_or_app; auto|]. split; auto. apply (sb_bound _ _ Hsb). auto.
    + destruct (Hf6 _ _ Hin) as [id [K1 K2]]. destruct (Hns _ _ K1) as [i [-> [L1 L2]]].
      split; [apply (pb_ns _ _ _ _ _ _ _ Hbuilt _ _ K1)|].
      exists oh, i, j. split; [apply in_or_app; right; left; auto|]. split; auto.
  - auto.
Qed.

(** ** Several objects *)
Lemma deserialize_each_spec fb k cs c : forall l d s fs fc r d',
  dinv fb k cs d s fs fc -> In c cs -> deserialize_each d c l = (r, d') -> r <> Panic ->
  exists s' fs' fc' new, dinv fb k cs d' s' fs' fc' /\ d_contracts (ds_b d') = d_contracts (ds_b d) /\
    ds_objects d' = ds_objects d ++ new /\ (r = Ok tt -> map snd new = l).
Proof.
  induction l as [|j l IH]; intros d s fs fc r d' Hd Hc E Hp; cbn in E.
  - injection E as <- <-. exists s, fs, fc, []. rewrite app_nil_r. auto.
  - destruct (validate_obj (ds_b d) c j) as [o|e|] eqn:Ev.
    2:{ injection E as <- <-. exists s, fs, fc, []. rewrite app_nil_r. split; auto. split; auto. split; auto. discriminate. }
    2:{ injection E as <- <-. congruence. }
    destruct (deserialize_obj d c j o) as [r1 d1] eqn:Ed.
    destruct (deserialize_obj_spec _ _ _ _ _ _ _ _ _ _ _ _ Hd Hc Ev Ed) as [Hct H].
    destruct r1 as [[]|e|].
    + destruct H as [s1 [fs1 [fc1 [oh [Hd1 Ho]]]]].
      destruct (IH _ _ _ _ _ _ Hd1 Hc E Hp) as [s' [fs' [fc' [new [Hd' [Hct' [Ho' Hn]]]]]]].
      exists s', fs', fc', ((oh, j) :: new). split; auto. split; [congruence|]. split.
      * rewrite Ho', Ho, <- app_assoc. reflexivity.
      * intros Hr. cbn. f_equal. auto.
    + injection E as <- <-. destruct H as [s1 [fs1 [fc1 [Hd1 Ho]]]].
      exists s1, fs1, fc1, []. rewrite app_nil_r. split; auto. split; [congruence|]. split; auto. discriminate.
    + injection E as <- <-. congruence.
Qed.

Lemma objects_with_idx cidx : forall l i0 j,
  In j (objects_with_contract_idx cidx i0 l) <->
  i0 <= j /\ exists o c, nth_error l (j - i0) = Some o /\ fo_contract o = Some c /\ N.to_nat c = cidx.
Proof.
  induction l as [|o l IH]; intros i0 j; cbn [objects_with_contract_idx].
  - split; [intros []|]. intros [_ [o [c [H _]]]]. destruct (j - i0); discriminate.
  - assert (Hrec : In j (objects_with_contract_idx cidx (S i0) l) <->
              S i0 <= j /\ exists o' c, nth_error (o :: l) (j - i0) = Some o' /\ fo_contract o' = Some c /\ N.to_nat c = cidx).
    { rewrite IH. split.
      - intros [H [o' [c Hc]]]. split; auto. exists o', c. replace (j - i0) with (S (j - S i0)) by lia. auto.
      - intros [H [o' [c Hc]]]. split; auto. exists o', c. replace (j - i0) with (S (j - S i0)) in Hc by lia. auto. }
    assert (Hhd : forall P : Prop, (P <-> exists c, fo_contract o = Some c /\ N.to_nat c = cidx) ->
       (P /\ i0 = j \/ S i0 <= j /\ (exists o' c, nth_error (o :: l) (j - i0) = Some o' /\ fo_contract o' = Some c /\ N.to_nat c = cidx)
        <-> i0 <= j /\ exists o' c, nth_error (o :: l) (j - i0) = Some o' /\ fo_contract o' = Some c /\ N.to_nat c = cidx)).
    { intros P HP. split.
      - intros [[Hp <-]|[H1 H2]].
        + split; auto. apply HP in Hp. destruct Hp as [c Hc]. exists o, c. rewrite Nat.sub_diag. auto.
        + split; [lia|auto].
      - intros [H1 H2]. destruct (Nat.eq_dec i0 j) as [<-|Hne].
        + left. split; auto. apply HP. destruct H2 as [o' [c [H2 H3]]]. rewrite Nat.sub_diag in H2. injection H2 as <-. eauto.
        + right. split; [lia|auto]. }
    destruct (fo_contract o) as [c|] eqn:Ec.
    + destruct (Nat.eqb_spec (N.to_nat c) cidx) as [E|E].
      * rewrite <- (Hhd True). 2:{ split; eauto. }
        cbn [In]. rewrite Hrec. tauto.
      * rewrite <- (Hhd False). 2:{ split; [tauto|]. intros [c' [H1 H2]]. congruence. }
        rewrite Hrec. tauto.
    + rewrite <- (Hhd False). 2:{ split; [tauto|]. intros [c' [H1 H2]]. congruence. }
      rewrite Hrec. tauto.
Qed.

Lemma deserialize_objects_spec fb k cs d s fs fc c r d' :
  dinv fb k cs d s fs fc -> In c cs -> deserialize_objects d c = (r, d') -> r <> Panic ->
  exists s' fs' fc' new, dinv fb k cs d' s' fs' fc' /\ ds_objects d' = ds_objects d ++ new /\
    (r = Ok tt -> forall j, In j (map snd new) <->
       exists idx, find_serialized_contract fb (ci_ty c) = Ok idx /\ buf_contract fb j = Some idx).
Proof.
  intros Hd Hc. pose proof (di_b _ _ _ _ _ _ _ Hd) as Hb. unfold deserialize_objects.
  destruct (bm_right index_eqb (ci_handle c) (d_contracts (ds_b d))) as [cidx|] eqn:Er.
  2:{ intros E; injection E as <- <-. congruence. }
  assert (Hf : find_serialized_contract fb (ci_ty c) = Ok cidx).
  { apply (bm_right_in index_eqb index_eqb_spec) in Er.
    destruct (db_found _ _ _ _ _ _ _ Hb _ Hc) as [idx Hidx].
    assert (Hin : In (idx, ci_handle c) (d_contracts (ds_b d))) by (apply (db_reg _ _ _ _ _ _ _ Hb); eauto).
    assert (idx = cidx) by (apply (db_bij _ _ _ _ _ _ _ Hb _ _ _ _ Hin Er); auto). congruence. }
  rewrite (db_fb _ _ _ _ _ _ _ Hb).
  destruct (fb_objects fb) as [objs|] eqn:Eo.
  - intros E Hp. destruct (deserialize_each_spec _ _ _ _ _ _ _ _ _ _ _ Hd Hc E Hp)
      as [s' [fs' [fc' [new [H1 [_ [H2 H3]]]]]]].
    exists s', fs', fc', new. split; auto. split; auto. intros Hr j. rewrite (H3 Hr), objects_with_idx.
    rewrite Nat.sub_0_r. unfold buf_contract, buf_object. rewrite Eo. split.
    + intros [_ [o [c' [Hn [Hfo <-]]]]]. rewrite Hn, Hfo. cbn. eauto.
    + intros [idx [Hf' Hj]]. split; [lia|]. destruct (nth_error objs j) as [o|]; [|discriminate].
      destruct (fo_contract o) as [c'|] eqn:Efo; [|discriminate]. cbn in Hj. exists o, c'. split; auto. split; auto. congruence.
  - intros E _. injection E as <- <-. exists s, fs, fc, []. rewrite app_nil_r. split; auto. split; auto.
    intros _ j. cbn. split; [tauto|]. intros [idx [_ Hj]]. unfold buf_contract, buf_object in Hj. rewrite Eo in Hj. discriminate.
Qed.

Lemma dinv_new fb k cs d s fs fc :
  dbinv fb k cs d s fs fc -> (forall o, rs_obj s o <> None -> o = d_null_obj d) ->
  dinv fb k cs (deser_new d) s fs fc.
Proof.
  intros Hb Ho. constructor; cbn; auto; try (intros ? ? []); try apply bij_nil.
Qed.

Lemma deserializes_inv fb k cs tried done d :
  deserializes fb k cs tried done d -> exists s fs fc, dinv fb k cs d s fs fc /\ incl tried cs /\ incl done tried /\
    (forall c idx j, In c done -> find_serialized_contract fb (ci_ty c) = Ok idx -> buf_contract fb j = Some idx ->
       exists o, In (o, j) (ds_objects d)).
Proof.
  induction 1 as [d Hb|tried done d c d' H IH Hc E|tried done d c e d' H IH Hc E].
  - destruct (builds_inv _ _ _ _ Hb) as [s [fs [fc [Hd Ho]]]]. exists s, fs, fc.
    split; [apply dinv_new; auto|]. split; [intros ? []|]. split; [intros ? []|]. intros c idx j [].
  - destruct IH as [s [fs [fc [Hd [Hi [Hi' Hcov]]]]]].
    destruct (deserialize_objects_spec _ _ _ _ _ _ _ _ _ _ Hd Hc E) as [s' [fs' [fc' [new [Hd' [Ho Hn]]]]]]; [discriminate|].
    exists s', fs', fc'. split; auto. split; [|split].
    + intros x Hx. apply in_app_or in Hx. destruct Hx as [Hx|[<-|[]]]; auto.
    + intros x Hx. apply in_app_or in Hx. apply in_or_app. destruct Hx as [Hx|[<-|[]]]; auto. right; left; auto.
    + intros c' idx j Hc' Hf Hj. rewrite Ho. apply in_app_or in Hc'. destruct Hc' as [Hc'|[<-|[]]].
      * destruct (Hcov _ _ _ Hc' Hf Hj) as [o Hin]. exists o. apply in_or_app. auto.
      * assert (Hin : In j (map snd new)) by (apply Hn; eauto).
        apply in_map_iff in Hin. destruct Hin as [[o j'] [Ej Hin]]. cbn in Ej. subst j'. exists o. apply in_or_app. auto.
  - destruct IH as [s [fs [fc [Hd [Hi [Hi' Hcov]]]]]].
    destruct (deserialize_objects_spec _ _ _ _ _ _ _ _ _ _ Hd Hc E) as [s' [fs' [fc' [new [Hd' [Ho Hn]]]]]]; [discriminate|].
    exists s', fs', fc'. split; auto. split; [|split].
    + intros x Hx. apply in_app_or in Hx. destruct Hx as [Hx|[<-|[]]]; auto.
    + intros x Hx. apply in_or_app. auto.
    + intros c' idx j Hc' Hf Hj. destruct (Hcov _ _ _ Hc' Hf Hj) as [o Hin]. exists o. rewrite Ho. apply in_or_app. auto.
Qed.

(** ** Restoring references *)
Definition restored (refs : list (nat * nat)) (objs : @bimap index nat) (ord : list (nat * index))
    (s : rstate) (o : index) (i : nat) (v v' : dynprop) : Prop :=
  (exists n sh oi oh, In (n, sh) ord /\ is_bound (rs_bound s) tobj sh o i /\ ref_of refs n = Some oi /\
     bm_right Nat.eqb oi objs = Some oh /\ v' = PPrim (VObjectHandle oh)) \/
  (~ (exists n sh, In (n, sh) ord /\ is_bound (rs_bound s) tobj sh o i) /\ v' = v).

Definition robj_upd (P : nat -> dynprop -> dynprop -> Prop) (x y : option robj) : Prop :=
  match x, y with
  | None, None => True
  | Some ro, Some ro' =>
      ro_contract ro' = ro_contract ro /\ ro_chans ro' = ro_chans ro /\ ro_warp ro' = ro_warp ro /\
      ro_live ro' = ro_live ro /\ length (ro_vals ro') = length (ro_vals ro) /\
      forall i v, nth_error (ro_vals ro) i = Some v -> exists v', nth_error (ro_vals ro') i = Some v' /\ P i v v'
  | _, _ => False
  end.

Lemma restore_refs_spec refs objs : forall ord b s fs fc r b',
  rrel b s fs fc -> (forall n sh, In (n, sh) ord -> exists o i, is_bound (rs_bound s) tobj sh o i) ->
  restore_refs refs objs b ord = (r, b') ->
  match r with
  | Ok _ => exists s' fs' fc', rrel b' s' fs' fc' /\ b_kind b' = b_kind b /\
      rs_con s' = rs_con s /\ rs_mem s' = rs_mem s /\
      forall o, robj_upd (restored refs objs ord s o) (rs_obj s o) (rs_obj s' o)
  | Err e => e = EDanglingObjectRef /\ exists n sh oi, In (n, sh) ord /\ ref_of refs n = Some oi /\ bm_right Nat.eqb oi objs = None
  | Panic => exists n sh, In (n, sh) ord /\ ref_of refs n = None
  end.
Proof.
  induction ord as [|[n sh] ord IH]; intros b s fs fc r b' Hr Hb E; cbn in E.
  - injection E as <- <-. exists s, fs, fc. repeat (split; auto).
    intros o. destruct (rs_obj s o) as [ro|]; cbn; auto. repeat (split; auto).
    intros i v Hv. exists v. split; auto. right. split; auto. intros [n [sh [[] _]]].
  - destruct (ref_of refs n) as [oi|] eqn:Eref.
    2:{ injection E as <- <-. exists n, sh. cbn. auto. }
    destruct (bm_right Nat.eqb oi objs) as [oh|] eqn:Ebm.
    2:{ injection E as <- <-. split; auto. exists n, sh, oi. cbn. auto. }
    destruct (Hb n sh (or_introl eq_refl)) as [o [i Hbd]].
    destruct (rec_set _ _ _ _ sh (PPrim (VObjectHandle oh)) o i Hr Hbd) as [b1 [fs1 [fc1 [Es [Hk Hr1]]]]].
    rewrite Es in E.
    set (s1 := with_robj s (write_val s o i (PPrim (VObjectHandle oh)))) in *.
    specialize (IH b1 s1 fs1 fc1 r b' Hr1).
    assert (Hb1 : forall n sh, In (n, sh) ord -> exists o i, is_bound (rs_bound s1) tobj sh o i).
    { intros n' sh' Hin. apply (Hb n' sh'). right; auto. }
    specialize (IH Hb1 E). destruct r as [u|e|].
    + destruct IH as [s' [fs' [fc' [Hr' [Hk' [Hc' [Hm' Ho']]]]]]]. exists s', fs', fc'.
      split; auto. split; [congruence|]. split; auto. split; auto.
      intros o'. specialize (Ho' o').
      destruct (rr_bound _ _ _ _ Hr _ _ _ _ Hbd) as [ro0 [v0 [Hro0 [Hv0 [Ht0 Hf0]]]]].
      assert (Hstep : forall i' v1 v', restored refs objs ord s1 o' i' v1 v' ->
                (o' = o /\ i' = i /\ v1 = PPrim (VObjectHandle oh)) \/
                ((o', i') <> (o, i)) -> forall v, ((o', i') <> (o, i) -> v1 = v) -> restored refs objs ((n, sh) :: ord) s o' i' v v').
      { intros i' v1 v' HR Hcase v Hv1. destruct HR as [[n1 [sh1 [oi1 [oh1 [R1 [R2 R3]]]]]]|[R1 ->]].
        - left. exists n1, sh1, oi1, oh1. split; [right; auto|]. auto.
        - destruct Hcase as [[-> [-> ->]]|Hne].
          + left. exists n, sh, oi, oh. split; [left; auto|]. auto.
          + right. split; [|auto]. intros [n1 [sh1 [[Hin|Hin] Hbd1]]].
            * injection Hin as <- <-. apply Hne.
              pose proof (rec_lookup _ _ _ _ _ _ _ _ Hr Hbd). pose proof (rec_lookup _ _ _ _ _ _ _ _ Hr Hbd1). congruence.
            * apply R1. exists n1, sh1. auto. }
      unfold s1, with_robj in Ho'. cbn [rs_obj] in Ho'. unfold write_val in Ho'. rewrite Hro0 in Ho'.
      destruct (index_eq_dec o o') as [<-|Hne].
      * rewrite upd_eq in Ho'. rewrite Hro0. destruct (rs_obj s' o) as [ro'|]; cbn in Ho' |- *; [|tauto].
        destruct Ho' as [P1 [P2 [P3 [P4 [P5 P6]]]]]. rewrite list_set_length in P5. repeat (split; auto).
        intros i' v Hv. destruct (Nat.eq_dec i i') as [<-|Hni].
        -- destruct (P6 i (PPrim (VObjectHandle oh))) as [v' [Hv' HR]].
           { apply nth_error_list_set_eq. eapply nth_error_lt; eauto. }
           exists v'. split; auto. eapply Hstep; eauto. congruence.
        -- destruct (P6 i' v) as [v' [Hv' HR]]; [rewrite nth_error_list_set_neq; auto|].
           exists v'. split; auto. eapply Hstep; eauto. right. congruence.
      * rewrite upd_neq in Ho' by auto. destruct (rs_obj s o') as [ro|], (rs_obj s' o') as [ro'|]; cbn in Ho' |- *; auto.
        destruct Ho' as [P1 [P2 [P3 [P4 [P5 P6]]]]]. repeat (split; auto).
        intros i' v Hv. destruct (P6 i' v Hv) as [v' [Hv' HR]]. exists v'. split; auto.
        eapply Hstep; eauto. right. congruence.
    + destruct IH as [-> [n1 [sh1 [oi1 [H1 H2]]]]]. split; auto. exists n1, sh1, oi1. split; [right; auto|auto].
    + destruct IH as [n1 [sh1 [H1 H2]]]. exists n1, sh1. split; [right; auto|auto].
Qed.
