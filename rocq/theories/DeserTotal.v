(** When the deserializer panics or fails. *)
From Verif Require Export DeserFinish.
Open Scope nat_scope.

Definition unknown_tag (fv : fbval) : Prop := exists g, fv = FOther g.

Lemma validate_states_cases states : forall idxs ts k,
  length idxs = length ts ->
  match validate_states states k idxs ts with
  | Ok _ => True
  | Panic => exists n, In n (map N.to_nat idxs) /\
      (nth_error states n = None \/ exists g, nth_error states n = Some (FOther g))
  | Err e => exists i n t fv, e = EObjStateType (k + i) /\ nth_error (map N.to_nat idxs) i = Some n /\
      nth_error states n = Some fv /\ nth_error ts i = Some t /\ tag_eq_ptype (p_type fv) t = false
  end.
Proof.
  induction idxs as [|s idxs IH]; intros [|t ts] k Hl; cbn in Hl; try discriminate; cbn [validate_states]; auto.
  destruct (nth_error states (N.to_nat s)) as [fv|] eqn:Es.
  2:{ exists (N.to_nat s). cbn. auto. }
  destruct (tag_eq_ptype (p_type fv) t) eqn:Et.
  - specialize (IH ts (S k)). destruct (validate_states states (S k) idxs ts) as [u|e|]; auto.
    + destruct IH as [i [n [t' [fv' [H1 [H2 H3]]]]]]; [congruence|]. exists (S i), n, t', fv'.
      split; [rewrite H1; f_equal; lia|]. auto.
    + destruct IH as [n [H1 H2]]; [congruence|]. exists n. cbn. auto.
  - destruct (variant_named (p_type fv)) eqn:En.
    + exists 0, (N.to_nat s), t, fv. rewrite Nat.add_0_r. cbn. auto.
    + exists (N.to_nat s). cbn. split; auto. right.
      destruct fv; cbn in En; try discriminate. eauto.
Qed.

Lemma find_contract_right fb k cs d s fs fc c idx :
  dbinv fb k cs d s fs fc -> In c cs -> find_serialized_contract fb (ci_ty c) = Ok idx ->
  bm_right index_eqb (ci_handle c) (d_contracts d) = Some idx.
Proof.
  intros Hb Hc Hf. apply (bm_right_iff index_eqb index_eqb_spec).
  - apply (db_bij _ _ _ _ _ _ _ Hb).
  - apply (db_reg _ _ _ _ _ _ _ Hb). eauto.
Qed.

(** Validation of an object that claims the contract [c]. *)
Lemma validate_obj_cases fb k cs d s fs fc c j idx :
  dbinv fb k cs d s fs fc -> In c cs -> find_serialized_contract fb (ci_ty c) = Ok idx ->
  buf_contract fb j = Some idx ->
  match validate_obj d c j with
  | Ok _ => True
  | Panic => exists n, In n (buf_indices fb j) /\ (buf_state fb n = None \/ exists g, buf_state fb n = Some (FOther g))
  | Err e => length (buf_indices fb j) <> length (ct_states (ci_ty c)) \/ fb_states fb = None \/
      exists i n t fv, nth_error (buf_indices fb j) i = Some n /\ buf_state fb n = Some fv /\
        nth_error (ct_states (ci_ty c)) i = Some t /\ tag_eq_ptype (p_type fv) t = false
  end.
Proof.
  intros Hb Hc Hf Hj. unfold validate_obj. rewrite (db_fb _ _ _ _ _ _ _ Hb).
  unfold buf_contract, buf_indices, buf_object, buf_state in *.
  destruct (fb_objects fb) as [objs|]; [|discriminate].
  destruct (nth_error objs j) as [o|]; [|discriminate].
  rewrite (find_contract_right _ _ _ _ _ _ _ _ _ Hb Hc Hf).
  destruct (fo_contract o) as [found|]; [|discriminate]. cbn in Hj. injection Hj as Hj.
  rewrite <- Hj, Nat.eqb_refl. cbn [negb].
  destruct (fo_states o) as [l|].
  - destruct (Nat.eqb_spec (length l) (length (ct_states (ci_ty c)))) as [El|El]; cbn [negb].
    2:{ left. rewrite map_length. auto. }
    destruct (fb_states fb) as [states|]; [|auto].
    pose proof (validate_states_cases states l (ct_states (ci_ty c)) 0 El) as H.
    destruct (validate_states states 0 l (ct_states (ci_ty c))) as [u|e|]; auto.
    destruct H as [i [n [t [fv H]]]]. right. right. exists i, n, t, fv. tauto.
  - destruct (Nat.eqb_spec 0 (length (ct_states (ci_ty c)))) as [El|El]; cbn [negb]; auto.
Qed.

(** Building the properties of a validated object. *)
Lemma build_props_cases fb d : d_fb d = fb -> forall l refs,
  (forall i id n, nth_error l i = Some (id, n) ->
     exists fv, buf_state fb (N.to_nat n) = Some fv /\ tag_eq_ptype (p_type fv) (pid_type id) = true) ->
  match fst (build_props d refs l) with
  | Ok _ => True
  | Panic => exists id n, In (id, n) l /\ buf_state fb (N.to_nat n) = Some (FFbString None)
  | Err e => exists i id n, nth_error l i = Some (id, n) /\
      ((exists ci, buf_state fb (N.to_nat n) = Some (FContractDataHandle ci) /\
          bm_left Nat.eqb (N.to_nat ci) (d_contracts d) = None /\ e = EContractNotRegistered) \/
       (e = EObjRefTracked /\ (exists oi, buf_state fb (N.to_nat n) = Some (FObjectHandle oi)) /\
        (In (N.to_nat n) (map fst refs) \/
         exists i' id' n', i' < i /\ nth_error l i' = Some (id', n') /\ N.to_nat n' = N.to_nat n)))
  end.
Proof.
  intros Hfb. induction l as [|[id n] l IH]; intros refs Hty; cbn -[existsb]; auto.
  destruct (Hty 0 id n eq_refl) as [fv [Hfv Ht]].
  assert (Hty' : forall i id n, nth_error l i = Some (id, n) ->
     exists fv, buf_state fb (N.to_nat n) = Some fv /\ tag_eq_ptype (p_type fv) (pid_type id) = true).
  { intros i id' n' Hi. apply (Hty (S i)). auto. }
  pose proof Hfv as Hfv'. unfold buf_state in Hfv'. rewrite Hfb.
  destruct (fb_states fb) as [states|]; [|discriminate]. rewrite Hfv'.
  destruct (decode (d_contracts d) fv) as [[p|oi]|e|] eqn:Ed.
  - specialize (IH refs Hty').
    destruct (build_props d refs l) as [[[ps ns]|e|] refs']; cbn [fst] in IH |- *; auto.
    + destruct IH as [i [id' [n' [H1 H2]]]]. exists (S i), id', n'. split; auto.
      destruct H2 as [H2|[H2 [H3 H4]]]; [left; auto|right]. split; auto. split; auto.
      destruct H4 as [H4|[i2 [id2 [n2 [L1 [L2 L3]]]]]]; [auto|right]. exists (S i2), id2, n2. split; [lia|auto].
    + destruct IH as [id' [n' [H1 H2]]]. exists id', n'. split; [right; auto|auto].
  - pose proof (decode_ref_type _ _ _ _ Ht Ed) as Hpt.
    destruct (decode_ref _ _ _ Ed) as [jj [Ejj ->]]. subst fv.
    destruct (existsb (fun p => Nat.eqb (fst p) (N.to_nat n)) refs) eqn:Eex.
    + cbn [fst]. exists 0, id, n. split; auto. right. split; auto. split; [eauto|]. left. apply refs_in_keys. auto.
    + rewrite Hpt. cbn [ptype_eqb prim_eqb negb].
      specialize (IH (refs ++ [(N.to_nat n, N.to_nat jj)]) Hty').
      destruct (build_props d (refs ++ [(N.to_nat n, N.to_nat jj)]) l) as [[[ps ns]|e|] refs']; cbn [fst] in IH |- *; auto.
      * destruct IH as [i [id' [n' [H1 H2]]]]. exists (S i), id', n'. split; auto.
        destruct H2 as [H2|[H2 [H3 H4]]]; [left; auto|right]. split; auto. split; auto.
        destruct H4 as [H4|[i2 [id2 [n2 [L1 [L2 L3]]]]]].
        -- rewrite map_app, in_app_iff in H4. destruct H4 as [H4|[H4|[]]]; [auto|].
           cbn in H4. right. exists 0, id, n. split; [lia|]. split; auto.
        -- right. exists (S i2), id2, n2. split; [lia|auto].
      * destruct IH as [id' [n' [H1 H2]]]. exists id', n'. split; [right; auto|auto].
  - cbn [fst]. exists 0, id, n. split; auto. left.
    destruct fv as [| | | | | | | | | | |os| |ci| |]; cbn in Ed; try discriminate.
    + destruct os; discriminate.
    + destruct (bm_left Nat.eqb (N.to_nat ci) (d_contracts d)) eqn:Eb; [discriminate|]. injection Ed as <-. eauto.
  - cbn [fst]. exists id, n. split; [left; auto|].
    destruct fv as [| | | | | | | | | | |os| |ci| |]; cbn in Ed; try discriminate.
    + destruct os; [discriminate|auto].
    + destruct (bm_left Nat.eqb (N.to_nat ci) (d_contracts d)); discriminate.
Qed.

(** The tracked references and the made objects come from the objects [P]. *)
Definition touched (fb : fb_baseline) (d : deser) (P : list nat) : Prop :=
  (forall n, In n (map fst (ds_refs d)) -> exists j i, In j P /\ nth_error (buf_indices fb j) i = Some n) /\
  (forall o j, In (o, j) (ds_objects d) -> In j P).

Lemma build_props_keys d : forall l refs n,
  In n (map fst (snd (build_props d refs l))) -> In n (map fst refs) \/ In n (map N.to_nat (map snd l)).
Proof.
  induction l as [|[id n0] l IH]; intros refs n; cbn -[existsb]; auto.
  destruct (fb_states (d_fb d)) as [states|]; cbn; auto.
  destruct (nth_error states (N.to_nat n0)) as [fv|]; cbn; auto.
  destruct (decode (d_contracts d) fv) as [[p|oi]|e|]; cbn; auto.
  - specialize (IH refs n). destruct (build_props d refs l) as [[[ps ns]|e|] refs']; cbn in *; intros H; destruct (IH H); auto.
  - destruct (existsb _ refs); cbn; auto.
    destruct (ptype_eqb (pid_type id) tobj); cbn.
    + specialize (IH (refs ++ [(N.to_nat n0, oi)]) n).
      assert (Hx : In n (map fst (refs ++ [(N.to_nat n0, oi)])) \/ In n (map N.to_nat (map snd l)) ->
                 In n (map fst refs) \/ N.to_nat n0 = n \/ In n (map N.to_nat (map snd l))).
      { rewrite map_app, in_app_iff. cbn. tauto. }
      destruct (build_props d (refs ++ [(N.to_nat n0, oi)]) l) as [[[ps ns]|e|] refs']; cbn in *; auto.
    + rewrite map_app, in_app_iff. cbn. tauto.
Qed.

Lemma snd_combine_incl {A B} (l : list A) : forall (m : list B), incl (map snd (combine l m)) m.
Proof.
  induction l as [|a l IH]; intros [|b m] x; cbn; auto; try tauto.
  intros [<-|H]; auto. right. apply (IH m). auto.
Qed.

Lemma deserialize_obj_touched fb d c j o P :
  d_fb (ds_b d) = fb -> buf_object fb j = Some o -> touched fb d P ->
  forall r d', deserialize_obj d c j o = (r, d') -> touched fb d' (j :: P).
Proof.
  intros Hfb Ho [T1 T2] r d' E.
  assert (T1' : forall n, In n (map fst (ds_refs d)) -> exists j0 i, In j0 (j :: P) /\ nth_error (buf_indices fb j0) i = Some n).
  { intros n Hn. destruct (T1 n Hn) as [j0 [i [H1 H2]]]. exists j0, i. split; [right; auto|auto]. }
  assert (T2' : forall oh j0, In (oh, j0) (ds_objects d) -> In j0 (j :: P)).
  { intros oh j0 Hin. right. eauto. }
  unfold deserialize_obj in E. fold (obj_idxs o) in E.
  destruct (match fo_states o with Some l => _ | None => _ end).
  { injection E as <- <-. split; auto. }
  pose proof (build_props_keys (ds_b d) (combine (state_ids (ci_ty c) (ci_handle c)) (obj_idxs o)) (ds_refs d)) as Hkeys.
  destruct (build_props (ds_b d) (ds_refs d) (combine (state_ids (ci_ty c) (ci_handle c)) (obj_idxs o))) as [rb refs] eqn:Eb.
  cbn [snd] in Hkeys.
  assert (T3 : forall n, In n (map fst refs) -> exists j0 i, In j0 (j :: P) /\ nth_error (buf_indices fb j0) i = Some n).
  { intros n Hn. destruct (Hkeys n Hn) as [H|H]; auto.
    apply in_map_iff in H. destruct H as [m [<- H]]. apply snd_combine_incl in H.
    assert (Hin : In (N.to_nat m) (buf_indices fb j)) by (rewrite (obj_idxs_buf _ _ _ Ho); apply in_map; auto).
    apply In_nth_error in Hin. destruct Hin as [i Hi]. exists j, i. split; [left; auto|auto]. }
  destruct rb as [[ps ns]|e|]; try (injection E as <- <-; split; auto; fail).
  destruct (object_create _ c ps []) as [[oh|e|] b1]; try (injection E as <- <-; split; auto; fail).
  destruct (track_nulls b1 oh ns (ds_states d)) as [[u|e|] st]; try (injection E as <- <-; split; auto; fail).
  destruct (bm_fresh index_eqb Nat.eqb oh j (ds_objects d)) eqn:Ef; injection E as <- <-; split; auto.
  all: cbn; unfold bm_insert; intros oh' j0 Hin; apply in_app_or in Hin;
    (destruct Hin as [Hin|[Hin|[]]]; [apply filter_In in Hin; destruct Hin as [Hin _]; eauto|]; injection Hin as _ <-; auto).
Qed.

(** One object: why it may panic or fail. *)
Lemma deserialize_obj_cases fb k cs d s fs fc c j o r d' :
  dinv fb k cs d s fs fc -> In c cs -> validate_obj (ds_b d) c j = Ok o ->
  deserialize_obj d c j o = (r, d') ->
  match r with
  | Ok _ => True
  | Panic => (exists n, In n (buf_indices fb j) /\ buf_state fb n = Some (FFbString None)) \/
             exists oh, In (oh, j) (ds_objects d)
  | Err e =>
      ct_chans (ci_ty c) <> [] \/
      (exists i ci, buf_field fb j i = Some (FContractDataHandle ci) /\
         forall h, ~ In (N.to_nat ci, h) (d_contracts (ds_b d))) \/
      (exists i n oi, nth_error (buf_indices fb j) i = Some n /\ buf_state fb n = Some (FObjectHandle oi) /\
        (In n (map fst (ds_refs d)) \/ exists i', i' < i /\ nth_error (buf_indices fb j) i' = Some n))
  end.
Proof.
  intros Hd Hc Hv. pose proof (di_b _ _ _ _ _ _ _ Hd) as Hb.
  destruct (validate_obj_ok _ _ _ _ _ _ _ _ _ _ Hb Hc Hv) as [Hbo [[cidx [Hfind Hbc]] [Hlen Hty]]].
  pose proof (obj_idxs_buf _ _ _ Hbo) as Hidx.
  assert (Hlen' : length (obj_idxs o) = length (ct_states (ci_ty c))).
  { rewrite Hidx, map_length in Hlen. auto. }
  unfold deserialize_obj. fold (obj_idxs o).
  assert (Hsane : (match fo_states o with Some l => negb (Nat.eqb (length l) (length (ct_states (ci_ty c)))) | None => false end) = false).
  { unfold obj_idxs in Hlen'. destruct (fo_states o); auto. rewrite Hlen', Nat.eqb_refl. reflexivity. }
  rewrite Hsane.
  set (l := combine (state_ids (ci_ty c) (ci_handle c)) (obj_idxs o)).
  assert (Hl : forall i id n, nth_error l i = Some (id, n) -> exists t, nth_error (ct_states (ci_ty c)) i = Some t /\
              id = mkPid t i (ci_handle c) /\ nth_error (buf_indices fb j) i = Some (N.to_nat n)).
  { intros i id n Hi. unfold l in Hi. rewrite nth_error_combine, state_ids_nth in Hi.
    destruct (nth_error (ct_states (ci_ty c)) i) as [t|]; cbn in Hi; [|discriminate].
    destruct (nth_error (obj_idxs o) i) as [n'|] eqn:En; [|discriminate]. injection Hi as <- <-.
    exists t. split; auto. split; auto. rewrite Hidx, nth_error_map, En. reflexivity. }
  assert (Htag : forall i id n, nth_error l i = Some (id, n) ->
     exists fv, buf_state fb (N.to_nat n) = Some fv /\ tag_eq_ptype (p_type fv) (pid_type id) = true).
  { intros i id n Hi. destruct (Hl _ _ _ Hi) as [t [H1 [-> H3]]]. destruct (Hty _ _ H1) as [n' [fv [K1 [K2 K3]]]].
    exists fv. assert (n' = N.to_nat n) by congruence. subst n'. auto. }
  pose proof (build_props_cases fb (ds_b d) (db_fb _ _ _ _ _ _ _ Hb) l (ds_refs d) Htag) as Hcases.
  destruct (build_props (ds_b d) (ds_refs d) l) as [rb refs] eqn:Eb. cbn [fst] in Hcases.
  destruct (build_props_spec fb (ds_b d) (db_fb _ _ _ _ _ _ _ Hb) _ _ _ _ (di_refs _ _ _ _ _ _ _ Hd) Eb) as [Hrok [Hincl Hbuilt]].
  destruct rb as [[ps ns]|e|].
  2:{ intros E; injection E as <- <-. destruct Hcases as [i [id [n [H1 H2]]]].
      destruct (Hl _ _ _ H1) as [t [K1 [K2 K3]]].
      destruct H2 as [[ci [H2 [H3 _]]]|[_ [[oi H3] H4]]].
      - right. left. exists i, ci. split; [unfold buf_field; rewrite K3; auto|].
        exact (proj1 (bm_left_none Nat.eqb Nat.eqb_spec _ _) H3).
      - right. right. exists i, (N.to_nat n), oi. split; auto. split; auto.
        destruct H4 as [H4|[i' [id' [n' [L1 [L2 L3]]]]]]; [auto|right].
        destruct (Hl _ _ _ L2) as [t' [M1 [M2 M3]]]. exists i'. split; auto. congruence. }
  2:{ intros E; injection E as <- <-. destruct Hcases as [id [n [H1 H2]]]. left.
      apply In_nth_error in H1. destruct H1 as [i H1]. destruct (Hl _ _ _ H1) as [t [K1 [K2 K3]]].
      exists (N.to_nat n). split; auto. eapply nth_error_In; eauto. }
  specialize (Hbuilt _ _ eq_refl).
  assert (Hpt : map prop_type ps = ct_states (ci_ty c)).
  { assert (Hll : length l = length (ct_states (ci_ty c))).
    { unfold l. rewrite combine_length. unfold state_ids. rewrite iter_collect_ids, ids_from_length. lia. }
    pose proof (pb_len _ _ _ _ _ _ _ Hbuilt) as Hpl.
    apply nth_error_ext. intros i. rewrite nth_error_map.
    destruct (nth_error l i) as [[id n]|] eqn:Eli.
    - destruct (Hl _ _ _ Eli) as [t [H1 [H2 H3]]]. destruct (Htag _ _ _ Eli) as [fv [G1 G2]].
      destruct (pb_val _ _ _ _ _ _ _ Hbuilt _ _ _ Eli) as [fv' [v [K1 [K2 K3]]]].
      assert (fv' = fv) by congruence. subst fv'. rewrite K2, H1. cbn. f_equal. rewrite H2 in G2. cbn in G2.
      destruct K3 as [K3|[oi [K3 [K4 _]]]].
      + eapply decode_val_type; eauto.
      + rewrite K4. cbn. symmetry. eapply decode_ref_type; eauto.
    - apply nth_error_None in Eli. rewrite (proj2 (nth_error_None ps i)) by lia. rewrite (proj2 (nth_error_None _ i)); [auto|lia]. }
  destruct (object_create (d_base (ds_b d)) c ps []) as [ro' b1] eqn:Ec.
  assert (Ec' : object_create (d_base (ds_b d)) (mkCinst (ci_ty c) (ci_handle c)) ps [] = (ro', b1)).
  { destruct c; auto. }
  destruct (rec_create _ _ _ _ _ _ _ _ _ _ (db_rel _ _ _ _ _ _ _ Hb) (rs_con_of _ _ _ _ _ _ _ _ Hb Hc) (Forall_nil _) Ec')
    as [[_ [Hct [oh [-> [Hno [Hk [fs1 [fc1 Hr1]]]]]]]]|[Hne [-> [e ->]]]].
  2:{ intros E; injection E as <- <-. left. intros Hch. apply Hne. rewrite Hch. auto. }
  set (s1 := rnext s (RCreate (ci_ty c) (ci_handle c) ps []) (Ok (YHandle oh))) in *.
  assert (Hlive : live_obj s1 oh = Some (mkRobj (ci_handle c) ps [] timewarp_default true)) by apply live_new.
  destruct (track_nulls_spec b1 (ci_ty c) (ci_handle c) oh (mkRobj (ci_handle c) ps [] timewarp_default true) fs1 fc1 ns s1
      (ds_states d) Hr1) as [st' [s2 [Et [Hr2 [Hsb [Hbij2 [Hf5 Hf6]]]]]]]; auto.
  { apply (rs_con_of _ _ _ _ _ _ _ _ Hb Hc). }
  { intros id n Hin. destruct (pb_ns _ _ _ _ _ _ _ Hbuilt _ _ Hin) as [[n' [Hin' <-]] [Ht _]].
    apply In_nth_error in Hin'. destruct Hin' as [i Hi]. destruct (Hl _ _ _ Hi) as [t [H1 [H2 H3]]].
    subst id. cbn in Ht. subst t. exists i. auto. }
  { apply (pb_nodup_id _ _ _ _ _ _ _ Hbuilt). apply NoDup_map_fst_combine, state_ids_nodup. }
  { apply (pb_nodup _ _ _ _ _ _ _ Hbuilt). }
  { intros n sh Hin. destruct (di_st _ _ _ _ _ _ _ Hd _ _ Hin) as [Hkey [o' [i [j' [Ho' [_ Hbd]]]]]]. split.
    - intros Hin2. apply in_map_iff in Hin2. destruct Hin2 as [[id n'] [E Hin2]]. cbn in E. subst n'.
      destruct (pb_ns _ _ _ _ _ _ _ Hbuilt _ _ Hin2) as [_ [_ [_ Hnk]]]. auto.
    - exists o', i. split; auto. intros id _ E. injection E as -> _.
      destruct (rr_bound _ _ _ _ (db_rel _ _ _ _ _ _ _ Hb) _ _ _ _ Hbd) as [ro2 [v2 [Ho2 _]]]. congruence. }
  { apply (di_stbij _ _ _ _ _ _ _ Hd). }
  rewrite Et.
  destruct (bm_fresh index_eqb Nat.eqb oh j (ds_objects d)) eqn:Efr; intros E; injection E as <- <-; auto.
  right. apply Bool.not_true_iff_false in Efr. rewrite (bm_fresh_true _ _ index_eqb_spec Nat.eqb_spec) in Efr.
  destruct (in_dec Nat.eq_dec j (map snd (ds_objects d))) as [Hin|Hnin].
  - apply in_map_iff in Hin. destruct Hin as [[oh' j'] [E Hin]]. cbn in E. subst j'. eauto.
  - exfalso. apply Efr. intros oh' j' Hin. split.
    + intros ->. destruct (di_made _ _ _ _ _ _ _ Hd _ _ Hin) as [_ [c' [ro [idx [_ [A2 _]]]]]]. congruence.
    + intros ->. apply Hnin. apply in_map_iff. exists (oh', j). auto.
Qed.

Lemma touched_mono fb d P Q : touched fb d P -> incl P Q -> touched fb d Q.
Proof.
  intros [H1 H2] Hi. split.
  - intros n Hn. destruct (H1 n Hn) as [j [i [H3 H4]]]. exists j, i. auto.
  - intros o j Hin. eauto.
Qed.

Lemma deserialize_each_cases fb k cs c idx : forall l d s fs fc r d' P,
  dinv fb k cs d s fs fc -> In c cs -> find_serialized_contract fb (ci_ty c) = Ok idx ->
  (forall j, In j l -> buf_contract fb j = Some idx) -> NoDup l -> (forall j, In j l -> ~ In j P) ->
  touched fb d P -> deserialize_each d c l = (r, d') ->
  touched fb d' (l ++ P) /\
  match r with
  | Ok _ => True
  | Panic => exists j, In j l /\ crashes fb j
  | Err _ => exists j, In j l /\ rejected fb cs c j
  end.
Proof.
  induction l as [|j l IH]; intros d s fs fc r d' P Hd Hc Hf Hl Hnd HP Ht E; cbn in E.
  - injection E as <- <-. auto.
  - pose proof (di_b _ _ _ _ _ _ _ Hd) as Hb.
    pose proof (validate_obj_cases _ _ _ _ _ _ _ _ _ _ Hb Hc Hf (Hl j (or_introl eq_refl))) as Hv.
    assert (Htm : touched fb d ((j :: l) ++ P)) by (eapply touched_mono; eauto; apply incl_appr, incl_refl).
    destruct (validate_obj (ds_b d) c j) as [o|e|] eqn:Ev.
    2:{ injection E as <- <-. split; auto. exists j. split; [left; auto|].
        destruct Hv as [Hv|[Hv|[i [n [t [fv [H1 [H2 [H3 H4]]]]]]]]].
        - right. right. left. auto.
        - right. left. auto.
        - right. right. right. left. exists i, t, fv. split; auto. split; auto. unfold buf_field. rewrite H1. auto. }
    2:{ injection E as <- <-. split; auto. exists j. split; [left; auto|].
        destruct Hv as [n [H1 H2]]. exists n. split; auto. tauto. }
    destruct (deserialize_obj d c j o) as [r1 d1] eqn:Ed.
    destruct (validate_obj_ok _ _ _ _ _ _ _ _ _ _ Hb Hc Ev) as [Hbo _].
    pose proof (deserialize_obj_touched fb d c j o P (db_fb _ _ _ _ _ _ _ Hb) Hbo Ht _ _ Ed) as Ht1.
    pose proof (deserialize_obj_cases _ _ _ _ _ _ _ _ _ _ _ _ Hd Hc Ev Ed) as Hcase.
    destruct (deserialize_obj_spec _ _ _ _ _ _ _ _ _ _ _ _ Hd Hc Ev Ed) as [Hct H].
    inversion Hnd as [|x y Hx Hy]; subst x y.
    destruct r1 as [[]|e|].
    + destruct H as [s1 [fs1 [fc1 [oh [Hd1 Ho]]]]].
      assert (Hl' : forall j', In j' l -> buf_contract fb j' = Some idx).
      { intros j' Hj'. apply Hl. right; auto. }
      assert (HP' : forall j', In j' l -> ~ In j' (j :: P)).
      { intros j' Hj' [<-|Hin]; [auto|]. apply (HP j'); [right; auto|auto]. }
      destruct (IH d1 s1 fs1 fc1 r d' (j :: P) Hd1 Hc Hf Hl' Hy HP' Ht1 E) as [T1 T2].
      split.
      * eapply touched_mono; eauto. intros x Hx'. apply in_app_or in Hx'. cbn.
        rewrite in_app_iff. cbn in Hx'. tauto.
      * destruct r as [u|e|]; auto; destruct T2 as [j' [H1 H2]]; exists j'; split; auto; right; auto.
    + injection E as <- <-. split.
      { eapply touched_mono; eauto. intros x Hx'. cbn. rewrite in_app_iff. cbn in Hx'. tauto. }
      exists j. split; [left; auto|].
      destruct Hcase as [Hcase|[[i [ci [H1 H2]]]|[i [n [oi [H1 [H2 H3]]]]]]].
      * left. auto.
      * right. right. right. right. left. exists i, ci. split; auto. intros c' Hc' Hf'.
        apply (H2 (ci_handle c')). apply (db_reg _ _ _ _ _ _ _ Hb). eauto.
      * right. right. right. right. right. destruct H3 as [H3|[i' [L1 L2]]].
        -- destruct (proj1 Ht _ H3) as [j' [i' [M1 M2]]]. exists i, j', i', n, oi. split; auto. split; auto. split; auto.
           intros E. injection E as <- <-. apply (HP j); [left; auto|auto].
        -- exists i, j, i', n, oi. split; auto. split; auto. split; auto. intros E; injection E as E. lia.
    + injection E as <- <-. split.
      { eapply touched_mono; eauto. intros x Hx'. cbn. rewrite in_app_iff. cbn in Hx'. tauto. }
      exists j. split; [left; auto|].
      destruct Hcase as [[n [H1 H2]]|[oh H1]].
      * exists n. auto.
      * exfalso. apply (HP j); [left; auto|]. eapply (proj2 Ht); eauto.
Qed.

Lemma objects_with_idx_nodup cidx : forall l i0, NoDup (objects_with_contract_idx cidx i0 l).
Proof.
  induction l as [|o l IH]; intros i0; cbn; [constructor|].
  destruct (fo_contract o) as [c|]; auto. destruct (Nat.eqb (N.to_nat c) cidx); auto.
  constructor; auto. rewrite objects_with_idx. lia.
Qed.

Lemma deserializes_touched fb k cs tried done d :
  deserializes fb k cs tried done d ->
  exists P, touched fb d P /\
    forall j, In j P -> exists c idx, In c tried /\ find_serialized_contract fb (ci_ty c) = Ok idx /\ buf_contract fb j = Some idx.
Proof.
  assert (Hstep : forall tried done d c r d', deserializes fb k cs tried done d -> In c cs -> deserialize_objects d c = (r, d') ->
     r <> Panic -> (exists P, touched fb d P /\
    forall j, In j P -> exists c idx, In c tried /\ find_serialized_contract fb (ci_ty c) = Ok idx /\ buf_contract fb j = Some idx) ->
     exists P, touched fb d' P /\
    forall j, In j P -> exists c0 idx, In c0 (tried ++ [c]) /\ find_serialized_contract fb (ci_ty c0) = Ok idx /\ buf_contract fb j = Some idx).
  { clear. intros tried done d c r d' H Hc E Hp [P [Ht HP]].
    destruct (deserializes_inv _ _ _ _ _ _ H) as [s [fs [fc [Hd _]]]].
    pose proof (di_b _ _ _ _ _ _ _ Hd) as Hb.
    destruct (db_found _ _ _ _ _ _ _ Hb _ Hc) as [idx Hidx].
    unfold deserialize_objects in E. rewrite (find_contract_right _ _ _ _ _ _ _ _ _ Hb Hc Hidx) in E.
    rewrite (db_fb _ _ _ _ _ _ _ Hb) in E.
    assert (Hold : forall j, In j P -> exists c0 idx, In c0 (tried ++ [c]) /\ find_serialized_contract fb (ci_ty c0) = Ok idx /\ buf_contract fb j = Some idx).
    { intros j Hj. destruct (HP _ Hj) as [c0 [i0 [H1 H2]]]. exists c0, i0. rewrite in_app_iff. auto. }
    destruct (fb_objects fb) as [objs|] eqn:Eo.
    2:{ injection E as <- <-. exists P. auto. }
    assert (Htd : touched fb d' (objects_with_contract_idx idx 0 objs ++ P)).
    { clear Hold HP H Hidx. revert E Hp. assert (Hd0 := Hd). revert Hd0 Ht. clear Hd Hb.
      generalize (objects_with_contract_idx idx 0 objs). intros l. revert d s fs fc P.
      induction l as [|j l IH]; intros d s fs fc P Hd Ht E Hp; cbn in E.
      - injection E as <- <-. auto.
      - pose proof (di_b _ _ _ _ _ _ _ Hd) as Hb.
        assert (Htm : touched fb d ((j :: l) ++ P)) by (eapply touched_mono; eauto; apply incl_appr, incl_refl).
        destruct (validate_obj (ds_b d) c j) as [o|e|] eqn:Ev; try (injection E as <- <-; auto; congruence).
        destruct (deserialize_obj d c j o) as [r1 d1] eqn:Ed.
        destruct (validate_obj_ok _ _ _ _ _ _ _ _ _ _ Hb Hc Ev) as [Hbo _].
        pose proof (deserialize_obj_touched fb d c j o P (db_fb _ _ _ _ _ _ _ Hb) Hbo Ht _ _ Ed) as Ht1.
        destruct (deserialize_obj_spec _ _ _ _ _ _ _ _ _ _ _ _ Hd Hc Ev Ed) as [Hct H].
        destruct r1 as [[]|e|].
        + destruct H as [s1 [fs1 [fc1 [oh [Hd1 Ho]]]]].
          eapply touched_mono; [eapply IH; eauto|]. intros x Hx. apply in_app_or in Hx. cbn. rewrite in_app_iff. cbn in Hx. tauto.
        + injection E as <- <-. eapply touched_mono; eauto. intros x Hx. cbn. rewrite in_app_iff. cbn in Hx. tauto.
        + injection E as <- <-. congruence. }
    exists (objects_with_contract_idx idx 0 objs ++ P). split; auto.
    intros j Hj. apply in_app_or in Hj. destruct Hj as [Hj|Hj]; auto.
    apply objects_with_idx in Hj. destruct Hj as [_ [o [c0 [H1 [H2 H3]]]]]. rewrite Nat.sub_0_r in H1.
    exists c, idx. rewrite in_app_iff. cbn. split; auto. split; auto.
    unfold buf_contract, buf_object. rewrite Eo, H1, H2. cbn. congruence. }
  induction 1 as [d Hb|tried done d c d' H IH Hc E|tried done d c e d' H IH Hc E].
  - exists []. split; [|intros j []]. split; cbn; [intros n []|intros o j []].
  - eapply Hstep; eauto. discriminate.
  - eapply Hstep; eauto. discriminate.
Qed.

(** Deserializing the objects of a contract for the first time. *)
Lemma deserialize_objects_cases fb k cs tried done d c r d' :
  deserializes fb k cs tried done d -> In c cs -> ~ In c tried -> deserialize_objects d c = (r, d') ->
  match r with
  | Ok _ => True
  | Panic => exists j idx, find_serialized_contract fb (ci_ty c) = Ok idx /\ buf_contract fb j = Some idx /\ crashes fb j
  | Err _ => exists j idx, find_serialized_contract fb (ci_ty c) = Ok idx /\ buf_contract fb j = Some idx /\ rejected fb cs c j
  end.
Proof.
  intros H Hc Hnt E.
  destruct (deserializes_inv _ _ _ _ _ _ H) as [s [fs [fc [Hd [Hincl _]]]]].
  destruct (deserializes_touched _ _ _ _ _ _ H) as [P [Ht HP]].
  pose proof (di_b _ _ _ _ _ _ _ Hd) as Hb.
  destruct (db_found _ _ _ _ _ _ _ Hb _ Hc) as [idx Hidx].
  unfold deserialize_objects in E. rewrite (find_contract_right _ _ _ _ _ _ _ _ _ Hb Hc Hidx) in E.
  rewrite (db_fb _ _ _ _ _ _ _ Hb) in E.
  destruct (fb_objects fb) as [objs|] eqn:Eo.
  2:{ injection E as <- <-. auto. }
  assert (Hl : forall j, In j (objects_with_contract_idx idx 0 objs) -> buf_contract fb j = Some idx).
  { intros j Hj. apply objects_with_idx in Hj. destruct Hj as [_ [o [c0 [H1 [H2 H3]]]]]. rewrite Nat.sub_0_r in H1.
    unfold buf_contract, buf_object. rewrite Eo, H1, H2. cbn. congruence. }
  assert (Hfin : forall j, In j (objects_with_contract_idx idx 0 objs) -> ~ In j P).
  { intros j Hj HjP. destruct (HP _ HjP) as [c' [idx' [G1 [G2 G3]]]]. apply Hnt.
    assert (idx' = idx) by (specialize (Hl _ Hj); congruence). subst idx'.
    assert (Eh : ci_handle c' = ci_handle c).
    { assert (In (idx, ci_handle c') (d_contracts (ds_b d))) by (apply (db_reg _ _ _ _ _ _ _ Hb); eauto).
      assert (In (idx, ci_handle c) (d_contracts (ds_b d))) by (apply (db_reg _ _ _ _ _ _ _ Hb); eauto).
      apply (db_bij _ _ _ _ _ _ _ Hb _ _ _ _ H0 H1). auto. }
    assert (Ec : c' = c).
    { pose proof (rs_con_of _ _ _ _ _ _ _ _ Hb Hc) as R1. pose proof (rs_con_of _ _ _ _ _ _ _ _ Hb (Hincl _ G1)) as R2.
      destruct c, c'; cbn in *. congruence. }
    subst c'. auto. }
  destruct (deserialize_each_cases fb k cs c idx _ d s fs fc r d' P Hd Hc Hidx Hl (objects_with_idx_nodup _ _ _) Hfin Ht E) as [_ HR].
  destruct r as [u|e|]; auto; destruct HR as [j [H1 H2]]; exists j, idx; auto.
Qed.
