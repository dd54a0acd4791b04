(** C26: exactly which buffer objects are accepted, and which make it panic. *)
From Verif Require Import DeserExact DeserPanic PropertiesTags PropertiesDeser.
Open Scope nat_scope.

(** ** Specification *)

(** Buffer object [j] can become an object of contract [c], when [cs] are the
    registered contracts and [read] are the buffer objects read: the
    contract has no channels, the object has one state per field, each present, of
    the field's type and with its string if it is one; contract references name
    registered contracts; and no other field of these objects uses the same state
    for an object reference. *)
Record acceptable (fb : fb_baseline) (cs : list contract_inst) (read : nat -> Prop) (c : contract_inst) (j : nat) : Prop := {
  ac_no_channels : ct_chans (ci_ty c) = [];
  ac_count : length (buf_indices fb j) = length (ct_states (ci_ty c));
  ac_states : forall o, buf_object fb j = Some o -> fo_states o <> None -> fb_states fb <> None;
  ac_fields : forall i t, nth_error (ct_states (ci_ty c)) i = Some t ->
     exists fv, buf_field fb j i = Some fv /\ tag_is (p_type fv) t /\ fv <> FFbString None;
  ac_contract_refs : forall i n, buf_field fb j i = Some (FContractDataHandle n) ->
     exists c', In c' cs /\ selected fb (ci_ty c') (N.to_nat n);
  ac_object_refs : forall i n oi j' i',
     nth_error (buf_indices fb j) i = Some n -> buf_state fb n = Some (FObjectHandle oi) ->
     read j' -> nth_error (buf_indices fb j') i' = Some n -> j' = j /\ i' = i
}.

(** [j] is the first buffer object that belongs to [c]. *)
Definition first_of (fb : fb_baseline) (c : contract_inst) (j : nat) : Prop :=
  belongs fb [c] j /\ forall j', belongs fb [c] j' -> j <= j'.

(** Field [i] of buffer object [j] has the tag of its type in [c]. *)
Definition right_tag (fb : fb_baseline) (c : contract_inst) (j i : nat) : Prop :=
  forall t, nth_error (ct_states (ci_ty c)) i = Some t ->
    exists fv, buf_field fb j i = Some fv /\ tag_is (p_type fv) t.

(** Reading buffer object [j] as an object of [c], after the objects [before],
    panics: it has one state per field, and either a state is missing from the
    buffer or has a tag the schema does not know, and the fields before it have
    the right tags; or all tags are right, a string is missing, and in the fields
    before it every contract reference is known and every object reference new. *)
Inductive panics (fb : fb_baseline) (cs : list contract_inst) (before : nat -> Prop) (c : contract_inst) (j : nat) : Prop :=
| bad_state i :
    length (buf_indices fb j) = length (ct_states (ci_ty c)) -> i < length (ct_states (ci_ty c)) ->
    fb_states fb <> None ->
    (buf_field fb j i = None \/ exists g, buf_field fb j i = Some (FOther g)) ->
    (forall i', i' < i -> right_tag fb c j i') ->
    panics fb cs before c j
| no_string i :
    length (buf_indices fb j) = length (ct_states (ci_ty c)) ->
    (forall i', right_tag fb c j i') ->
    buf_field fb j i = Some (FFbString None) ->
    (forall i' n, i' < i -> buf_field fb j i' = Some (FContractDataHandle n) ->
       exists c', In c' cs /\ selected fb (ci_ty c') (N.to_nat n)) ->
    (forall i' n oi, i' < i -> nth_error (buf_indices fb j) i' = Some n -> buf_state fb n = Some (FObjectHandle oi) ->
       (forall j2 i2, before j2 -> nth_error (buf_indices fb j2) i2 <> Some n) /\
       (forall i2, i2 < i' -> nth_error (buf_indices fb j) i2 <> Some n)) ->
    panics fb cs before c j.

(** The buffer objects read before [j]: those of [done], and those of [c] that
    come before it in the buffer. *)
Definition read_before (fb : fb_baseline) (done : list contract_inst) (c : contract_inst) (j j' : nat) : Prop :=
  belongs fb done j' \/ (belongs fb [c] j' /\ j' < j).

(** ** Proofs *)
Section Glue.
Context (fb : fb_baseline) (k : baseline_kind) (cs done : list contract_inst) (d : deser) (c : contract_inst) (idx : nat).
Hypothesis HL : forall c, In c cs -> layout_ok (ci_ty c).
Hypothesis Hincl : incl done cs.
Hypothesis Hc : In c cs.
Hypothesis Hf : find_serialized_contract fb (ci_ty c) = Ok idx.

Lemma belongs_one j : belongs fb [c] j <-> buf_contract fb j = Some idx.
Proof.
  split.
  - intros [c' [i [[<-|[]] [H1 H2]]]]. apply find_contract_iff in H1; auto. congruence.
  - intros H. exists c, idx. split; [left; auto|]. split; auto. apply find_contract_iff; auto.
Qed.
Lemma belongs_done j : belongs fb done j <-> exists c' i, In c' done /\
  find_serialized_contract fb (ci_ty c') = Ok i /\ buf_contract fb j = Some i.
Proof.
  split; intros [c' [i [H1 [H2 H3]]]]; exists c', i; split; auto; split; auto; apply find_contract_iff; auto.
Qed.
Lemma belongs_both j : belongs fb (done ++ [c]) j <-> belongs fb done j \/ belongs fb [c] j.
Proof.
  split.
  - intros [c' [i [H1 H2]]]. apply in_app_or in H1. destruct H1 as [H1|H1]; [left|right]; exists c', i; auto.
  - intros [[c' [i [H1 H2]]]|[c' [i [H1 H2]]]]; exists c', i; split; auto; apply in_or_app; auto.
Qed.
Lemma ref_states_iff j n : In n (ref_states fb j) <->
  exists i oi, nth_error (buf_indices fb j) i = Some n /\ buf_state fb n = Some (FObjectHandle oi).
Proof.
  unfold ref_states. rewrite filter_In, is_ref_iff. split.
  - intros [H1 [oi H2]]. apply In_nth_error in H1. destruct H1 as [i H1]. eauto.
  - intros [i [oi [H1 H2]]]. split; [eapply nth_error_In; eauto|eauto].
Qed.

Lemma acceptable_list (keys : list nat) (l : list nat) (read : nat -> Prop) :
  (forall n, In n keys <-> exists j, belongs fb done j /\ In n (ref_states fb j)) -> NoDup keys ->
  ~ In c done ->
  (forall c', In c' cs -> find_serialized_contract fb (ci_ty c') = Ok idx -> c' = c) ->
  NoDup l -> (forall j, In j l -> belongs fb [c] j) -> (forall j, read j <-> belongs fb done j \/ In j l) ->
  (forall j, In j l -> acceptable fb cs read c j) <->
  ((forall j, In j l -> well_formed fb cs c j) /\ NoDup (keys ++ flat_map (ref_states fb) l)).
Proof.
  intros Hkeys Hnd Hndone Hinj Hndl Hsub Hread.
  assert (Hdis : forall j, belongs fb [c] j -> ~ belongs fb done j).
  { intros j H1 H2. apply belongs_one in H1. apply belongs_done in H2. destruct H2 as [c' [i [A1 [A2 A3]]]].
    assert (i = idx) by congruence. subst i. apply Hndone. rewrite <- (Hinj c'); auto. }
  rewrite nodup_app_iff, (nodup_flat_map _ _ Hndl).
  split.
  - intros H. split.
    + intros j Hj. destruct (H _ Hj) as [A1 A2 A3 A4 A5 A6].
      split; auto. split; auto. split; auto. split.
      * intros i t Ht. destruct (A4 _ _ Ht) as [fv [B1 [B2 B3]]]. exists fv. split; auto. split; auto.
        apply C28_tag_equals_type_iff_same. auto.
      * intros i n Hn. destruct (A5 _ _ Hn) as [c' [B1 B2]]. exists c'. split; auto. apply find_contract_iff; auto.
    + split; auto. split; [split|].
      * intros j Hj. apply nodup_filter_pos.
        intros i i' n Hi Hi' Hr. apply is_ref_iff in Hr. destruct Hr as [oi Hr].
        destruct (ac_object_refs _ _ _ _ _ (H _ Hj) i n oi j i' Hi Hr) as [_ E]; auto. apply Hread. auto.
      * intros j j' n Hj Hj' Hn Hn'.
        apply ref_states_iff in Hn. destruct Hn as [i [oi [B1 B2]]]. apply ref_states_iff in Hn'. destruct Hn' as [i' [_ [C1 _]]].
        destruct (ac_object_refs _ _ _ _ _ (H _ Hj) i n oi j' i' B1 B2) as [E _]; auto. apply Hread. auto.
      * intros n Hn Hin. apply Hkeys in Hn. destruct Hn as [j' [D1 D2]].
        apply in_flat_map in Hin. destruct Hin as [j [Hj Hn]].
        apply ref_states_iff in Hn. destruct Hn as [i [oi [B1 B2]]]. apply ref_states_iff in D2. destruct D2 as [i' [_ [C1 _]]].
        destruct (ac_object_refs _ _ _ _ _ (H _ Hj) i n oi j' i' B1 B2) as [E _]; auto. { apply Hread. auto. }
        subst j'. apply (Hdis _ (Hsub _ Hj) D1).
  - intros [Hw [_ [[N1 N2] N3]]] j Hj.
    destruct (Hw _ Hj) as [A1 [A2 [A3 [A4 A5]]]]. constructor; auto.
    + intros i t Ht. destruct (A4 _ _ Ht) as [fv [B1 [B2 B3]]]. exists fv. split; auto. split; auto.
      apply C28_tag_equals_type_iff_same. auto.
    + intros i n Hn. destruct (A5 _ _ Hn) as [c' [B1 B2]]. exists c'. split; auto. apply find_contract_iff; auto.
    + intros i n oi j' i' B1 B2 Hb B3. apply Hread in Hb.
      assert (I1 : In n (ref_states fb j)) by (apply ref_states_iff; eauto).
      assert (I2 : In n (ref_states fb j')) by (apply ref_states_iff; eauto).
      destruct Hb as [Hb|Hb].
      * exfalso. apply (N3 n); [apply Hkeys; eauto|]. apply in_flat_map. eauto.
      * assert (j' = j) by (eapply N2; eauto). subst j'. split; auto.
        specialize (N1 _ Hj). unfold ref_states in N1. rewrite nodup_filter_pos in N1.
        eapply N1; eauto. apply is_ref_iff. eauto.
Qed.

Lemma tags_ok_iff j m : tags_ok fb c j m <-> forall i, i < m -> right_tag fb c j i.
Proof.
  split.
  - intros H i Hi t Ht. destruct (H i t Hi Ht) as [fv [H1 H2]]. exists fv. split; auto. apply C28_tag_equals_type_iff_same. auto.
  - intros H i t Hi Ht. destruct (H i Hi t Ht) as [fv [H1 H2]]. exists fv. split; auto. apply C28_tag_equals_type_iff_same. auto.
Qed.

Lemma panics_iff (keys : list nat) (before : nat -> Prop) j :
  (forall n, In n keys <-> exists j', before j' /\ In n (ref_states fb j')) ->
  panics_on fb cs keys c j <-> panics fb cs before c j.
Proof.
  intros Hkeys. split.
  - intros [H0 [[H1 [i [H2 [H3 H4]]]]|[H1 [m [H2 H3]]]]].
    + apply bad_state with i; auto; [lia|]. apply tags_ok_iff. auto.
    + apply no_string with m; auto.
      * intros i' t Ht. apply (proj1 (tags_ok_iff _ _) H1 i'); auto. eapply nth_error_lt; eauto.
      * intros i' n Hi Hn. unfold buf_field in Hn. destruct (nth_error (buf_indices fb j) i') as [n'|] eqn:En; [|discriminate].
        destruct (proj1 (H3 _ _ Hi En) _ Hn) as [c' [K1 K2]]. exists c'. split; auto. apply find_contract_iff; auto.
      * intros i' n oi Hi En Hn. destruct (proj2 (H3 _ _ Hi En) _ Hn) as [K1 K2]. split; auto.
        intros j2 i2 Hb Hn2. apply K1. apply Hkeys. exists j2. split; auto. apply ref_states_iff. eauto.
  - intros [i H0 H1 H2 H3 H4|m H0 H1 H2 H3 H4]; (split; [auto|]).
    + left. split; auto. exists i. split; [lia|]. split; auto. apply tags_ok_iff. auto.
    + right. split; [apply tags_ok_iff; auto|]. exists m. split; auto. intros i n Hi Hn. split.
      * intros ci Hci. destruct (H3 i ci Hi) as [c' [K1 K2]]; [unfold buf_field; rewrite Hn; auto|].
        exists c'. split; auto. apply find_contract_iff; auto.
      * intros oi Hoi. destruct (H4 _ _ _ Hi Hn Hoi) as [K1 K2]. split; auto.
        intros Hin. apply Hkeys in Hin. destruct Hin as [j2 [L1 L2]]. apply ref_states_iff in L2.
        destruct L2 as [i2 [_ [L2 _]]]. apply (K1 _ _ L1 L2).
Qed.
End Glue.

(** The objects of a contract are read, the first time, exactly if each of them is
    acceptable. *)
Theorem C26_accepts_exactly :
  forall fb k cs done d c r d',
    cs_ok cs -> deserializes fb k cs done done d -> In c cs -> ~ In c done ->
    deserialize_objects d c = (r, d') ->
    (r = Ok tt <-> forall j, belongs fb [c] j -> acceptable fb cs (belongs fb (done ++ [c])) c j).
Proof.
  intros fb k cs done d c r d' HL Hds Hc Hnd E. unfold cs_ok in HL. rewrite Forall_forall in HL.
  destruct (deserializes_inv _ _ _ _ _ _ Hds) as [s [fs [fc [Hd [Hi1 [_ _]]]]]].
  pose proof (di_b _ _ _ _ _ _ _ Hd) as Hb.
  pose proof (deserializes_covered _ _ _ _ _ _ Hds eq_refl) as Hcov.
  destruct (db_found _ _ _ _ _ _ _ Hb _ Hc) as [idx Hf].
  destruct (first_time _ _ _ _ _ _ _ _ _ _ _ _ Hd Hcov Hi1 Hc Hnd Hf E) as [H _].
  rewrite H. pose proof (belongs_one fb cs c idx HL Hc Hf) as Hbel.
  rewrite <- (acceptable_list fb cs done c idx HL Hi1 Hc Hf (map fst (ds_refs d)) (objects_of fb idx) (belongs fb (done ++ [c]))); auto.
  - split; intros G j Hj; apply G; [apply objects_of_in, Hbel|apply Hbel, objects_of_in]; auto.
  - intros n. rewrite (cv_keys _ _ _ _ Hcov). split.
    + intros [c' [i [j [H1 [H2 [H3 H4]]]]]]. exists j. split; auto. apply belongs_done with (cs := cs); eauto.
    + intros [j [H1 H2]]. apply belongs_done with (cs := cs) in H1; auto. destruct H1 as [c' [i [A1 [A2 A3]]]]. exists c', i, j. auto.
  - apply (cv_nodup _ _ _ _ Hcov).
  - intros c' Hc' Hf'. eapply same_contract; eauto.
  - apply objects_of_nodup.
  - intros j Hj. apply Hbel, objects_of_in. auto.
  - intros j. rewrite belongs_both, Hbel, objects_of_in. tauto.
Qed.
Print Assumptions C26_accepts_exactly.

(** ... and reading them panics exactly if the objects of [c] before some object
    are acceptable and that object is one of those that panic: in every other
    case that is not a success the call returns an error. *)
Theorem C26_panics_exactly :
  forall fb k cs done d c r d',
    cs_ok cs -> deserializes fb k cs done done d -> In c cs -> ~ In c done ->
    deserialize_objects d c = (r, d') ->
    (r = Panic <-> exists j, belongs fb [c] j /\
       (forall j', belongs fb [c] j' -> j' < j -> acceptable fb cs (read_before fb done c j) c j') /\
       panics fb cs (read_before fb done c j) c j).
Proof.
  intros fb k cs done d c r d' HL Hds Hc Hnd E. unfold cs_ok in HL. rewrite Forall_forall in HL.
  destruct (deserializes_inv _ _ _ _ _ _ Hds) as [s [fs [fc [Hd [Hi1 [_ _]]]]]].
  pose proof (di_b _ _ _ _ _ _ _ Hd) as Hb.
  pose proof (deserializes_covered _ _ _ _ _ _ Hds eq_refl) as Hcov.
  destruct (db_found _ _ _ _ _ _ _ Hb _ Hc) as [idx Hf].
  pose proof (belongs_one fb cs c idx HL Hc Hf) as Hbel.
  assert (Hkeys : forall n, In n (map fst (ds_refs d)) <-> exists j, belongs fb done j /\ In n (ref_states fb j)).
  { intros n. rewrite (cv_keys _ _ _ _ Hcov). split.
    + intros [c' [i [j [H1 [H2 [H3 H4]]]]]]. exists j. split; auto. apply belongs_done with (cs := cs); eauto.
    + intros [j [H1 H2]]. apply belongs_done with (cs := cs) in H1; auto. destruct H1 as [c' [i [A1 [A2 A3]]]]. exists c', i, j. auto. }
  assert (Hstep : forall l1 j l2, objects_of fb idx = l1 ++ j :: l2 ->
     ((forall j', belongs fb [c] j' -> j' < j -> acceptable fb cs (read_before fb done c j) c j') /\
      panics fb cs (read_before fb done c j) c j <->
      (forall j', In j' l1 -> well_formed fb cs c j') /\
      NoDup (map fst (ds_refs d) ++ flat_map (ref_states fb) l1) /\
      panics_on fb cs (map fst (ds_refs d) ++ flat_map (ref_states fb) l1) c j)).
  { intros l1 j l2 El. destruct (objects_of_split _ _ _ _ _ El) as [Hl1 Hj].
    assert (Hrb : forall x, read_before fb done c j x <-> belongs fb done x \/ In x l1).
    { intros x. unfold read_before. rewrite Hl1, Hbel. tauto. }
    rewrite (panics_iff fb cs c HL (map fst (ds_refs d) ++ flat_map (ref_states fb) l1) (read_before fb done c j)).
    2:{ intros n. rewrite in_app_iff, Hkeys, in_flat_map. split.
        - intros [[x [H1 H2]]|[x [H1 H2]]]; exists x; rewrite Hrb; auto.
        - intros [x [H1 H2]]. apply Hrb in H1. destruct H1; eauto. }
    pose proof (acceptable_list fb cs done c idx HL Hi1 Hc Hf (map fst (ds_refs d)) l1 (read_before fb done c j)) as HA.
    assert (HA' : (forall j', In j' l1 -> acceptable fb cs (read_before fb done c j) c j') <->
       (forall j', In j' l1 -> well_formed fb cs c j') /\ NoDup (map fst (ds_refs d) ++ flat_map (ref_states fb) l1)).
    { apply HA; auto.
      - apply (cv_nodup _ _ _ _ Hcov).
      - intros c' Hc' Hf'. eapply same_contract; eauto.
      - pose proof (objects_of_nodup fb idx) as Hn. rewrite El in Hn. apply nodup_app_iff in Hn. tauto.
      - intros x Hx. apply Hbel. apply Hl1 in Hx. tauto. }
    rewrite <- and_assoc, <- HA'. split; intros [H1 H2]; (split; [|exact H2]).
    - intros x Hx. apply Hl1 in Hx. apply H1; [apply Hbel|]; tauto.
    - intros x Hx Hlt. apply H1. apply Hl1. split; auto. apply Hbel. auto. }
  rewrite (first_time_panic _ _ _ _ _ _ _ _ _ _ _ _ Hd Hcov Hi1 Hc Hnd Hf E). split.
  - intros [l1 [j [l2 [El H]]]]. exists j. split; [|apply (Hstep _ _ _ El); auto].
    apply Hbel. destruct (objects_of_split _ _ _ _ _ El). auto.
  - intros [j [H1 H2]]. apply Hbel, objects_of_in in H1. apply in_split in H1. destruct H1 as [l1 [l2 El]].
    exists l1, j, l2. split; auto. apply (Hstep _ _ _ El). auto.
Qed.
Print Assumptions C26_panics_exactly.

(** Asking a second time for the objects of a contract: nothing happens if there
    are none; otherwise the first object decides: the call fails, changing nothing,
    if it holds an object reference, and panics if it does not. *)
Theorem C26_second_time_exactly :
  forall fb k cs done d c r d',
    cs_ok cs -> deserializes fb k cs done done d -> In c done ->
    deserialize_objects d c = (r, d') ->
    ((forall j, ~ belongs fb [c] j) -> r = Ok tt /\ d' = d) /\
    (forall j i oi, first_of fb c j -> buf_field fb j i = Some (FObjectHandle oi) ->
       (exists e, r = Err e) /\ d' = d) /\
    (forall j, first_of fb c j -> (forall i oi, buf_field fb j i <> Some (FObjectHandle oi)) -> r = Panic).
Proof.
  intros fb k cs done d c r d' HL Hds Hcd E. unfold cs_ok in HL. rewrite Forall_forall in HL.
  destruct (deserializes_inv _ _ _ _ _ _ Hds) as [s [fs [fc [Hd [Hi1 [_ Hall]]]]]].
  pose proof (Hi1 _ Hcd) as Hc. pose proof (di_b _ _ _ _ _ _ _ Hd) as Hb.
  pose proof (deserializes_covered _ _ _ _ _ _ Hds eq_refl) as Hcov.
  destruct (db_found _ _ _ _ _ _ _ Hb _ Hc) as [idx Hf].
  pose proof (second_time _ _ _ _ _ _ _ _ _ _ _ _ Hd Hcov Hi1 Hall Hcd Hf E) as H.
  pose proof (belongs_one fb cs c idx HL Hc Hf) as Hbel.
  pose proof (objects_of_in fb idx) as Hoi. pose proof (objects_of_least fb idx) as Hmin.
  destruct (objects_of fb idx) as [|j0 t].
  - split; auto. split.
    + intros j i oi [Hj _]. apply Hbel, Hoi in Hj. destruct Hj.
    + intros j [Hj _]. apply Hbel, Hoi in Hj. destruct Hj.
  - assert (Hj0 : belongs fb [c] j0) by (apply Hbel, Hoi; left; auto).
    assert (Hfirst : forall j, first_of fb c j -> j = j0).
    { intros j [Hj Hle]. specialize (Hle _ Hj0). apply Hbel, Hoi in Hj. destruct Hj as [->|Hj]; auto.
      specialize (Hmin _ _ j eq_refl Hj). lia. }
    split; [intros Hno; exfalso; exact (Hno _ Hj0)|]. split.
    + intros j i oi Hj Hfld. rewrite (Hfirst _ Hj) in Hfld.
      assert (Hin : exists n, In n (ref_states fb j0)).
      { unfold buf_field in Hfld. destruct (nth_error (buf_indices fb j0) i) as [n|] eqn:En; [|discriminate].
        exists n. apply ref_states_iff. eauto. }
      destruct (ref_states fb j0) as [|n0 rest]; [destruct Hin as [n []]|]. destruct H as [-> ->]. eauto.
    + intros j Hj Hnone. rewrite (Hfirst _ Hj) in Hnone.
      destruct (ref_states fb j0) as [|n0 rest] eqn:Er; auto. exfalso.
      assert (Hin : In n0 (ref_states fb j0)) by (rewrite Er; left; auto).
      apply ref_states_iff in Hin. destruct Hin as [i [oi [H1 H2]]]. apply (Hnone i oi). unfold buf_field. rewrite H1. auto.
Qed.
Print Assumptions C26_second_time_exactly.

(** A contract with channels can be read back only if it has no objects. *)
Theorem C26_objects_with_channels_are_never_accepted :
  forall fb k cs done d c r d' j,
    cs_ok cs -> deserializes fb k cs done done d -> In c cs ->
    ct_chans (ci_ty c) <> [] -> belongs fb [c] j ->
    deserialize_objects d c = (r, d') -> r <> Ok tt.
Proof.
  intros fb k cs done d c r d' j HL Hds Hc Hch Hj E ->.
  destruct (in_dec cinst_dec c done) as [Hin|Hnin].
  - assert (HL' := HL). unfold cs_ok in HL'. rewrite Forall_forall in HL'.
    destruct (deserializes_inv _ _ _ _ _ _ Hds) as [s [fs [fc [Hd _]]]].
    destruct (db_found _ _ _ _ _ _ _ (di_b _ _ _ _ _ _ _ Hd) _ Hc) as [idx Hf].
    pose proof (deserializes_covered _ _ _ _ _ _ Hds eq_refl) as Hcov.
    apply Hch. apply (belongs_one fb cs c idx HL' Hc Hf) in Hj. apply (cv_wf _ _ _ _ Hcov _ _ _ Hin Hf Hj).
  - apply Hch. apply (ac_no_channels fb cs (belongs fb (done ++ [c])) c j).
    eapply (proj1 (C26_accepts_exactly _ _ _ _ _ _ _ _ HL Hds Hc Hnin E) eq_refl); eauto.
Qed.
Print Assumptions C26_objects_with_channels_are_never_accepted.

(** *** Concrete cases *)
(** Both objects of the buffer of [ds_hypotheses] are acceptable; asking again
    fails, because its first object holds a reference. *)
Example accepts_example :
  let d := deser_new (snd (ds_builder dsFb [dsC])) in
  deserializes dsFb KMain [dsCon] [] [] d /\ fst (deserialize_objects d dsCon) = Ok tt /\
  belongs dsFb [dsCon] 0 /\ belongs dsFb [dsCon] 2 /\
  (forall j, belongs dsFb [dsCon] j -> acceptable dsFb [dsCon] (belongs dsFb [dsCon]) dsCon j).
Proof.
  intros d. assert (Hd : deserializes dsFb KMain [dsCon] [] [] d).
  { constructor. apply ds_builds. vm_compute. reflexivity. }
  destruct ds_hypotheses as [H1 [_ [_ [_ [H2 [H3 _]]]]]].
  assert (Hr : fst (deserialize_objects d dsCon) = Ok tt) by (vm_compute; reflexivity).
  split; [exact Hd|]. split; [exact Hr|]. split; [exact H2|]. split; [exact H3|].
  destruct (deserialize_objects d dsCon) as [r d'] eqn:E. cbn [fst] in Hr.
  apply (proj1 (C26_accepts_exactly _ _ _ _ _ dsCon r d' H1 Hd (or_introl eq_refl) (fun x => x) E) Hr).
Qed.
Example second_time_example :
  let d := snd (ds_deser dsFb [dsC] [dsCon]) in
  deserializes dsFb KMain [dsCon] [dsCon] [dsCon] d /\ first_of dsFb dsCon 0 /\
  buf_field dsFb 0 1 = Some (FObjectHandle 2) /\ fst (deserialize_objects d dsCon) = Err EObjRefTracked.
Proof.
  intros d. destruct ds_hypotheses as [H1 [_ [Hd [_ [H2 _]]]]].
  split; [exact Hd|]. split; [split; [exact H2|intros; lia]|]. split; [reflexivity|]. vm_compute. reflexivity.
Qed.
(** Two objects that share the state of a reference: the second is refused. *)
Definition dsShared : fb_baseline :=
  dsMk (Some [dsFC])
       (Some [mkFbObject (Some 0%N) (Some [0%N; 1%N; 2%N; 3%N]); mkFbObject (Some 0%N) (Some [0%N; 1%N; 2%N; 3%N])])
       (Some [FU8 7; FObjectHandle 1; FFbString (Some Coq.Strings.String.EmptyString); FContractDataHandle 0]).
Example shared_example :
  fst (deserialize_objects (deser_new (snd (ds_builder dsShared [dsC]))) dsCon) = Err EObjRefTracked.
Proof. vm_compute. reflexivity. Qed.

(** An acceptable object, then one whose third field is a string without text
    (its fourth names no registered contract: too late to matter), then one with
    too few states (never looked at). *)
Definition dsBad : fb_baseline :=
  dsMk (Some [dsFC])
       (Some [mkFbObject (Some 0%N) (Some [0%N; 1%N; 2%N; 3%N]); mkFbObject (Some 0%N) (Some [0%N; 4%N; 5%N; 6%N]);
              mkFbObject (Some 0%N) (Some [0%N])])
       (Some [FU8 7; FObjectHandle 1; FFbString (Some Coq.Strings.String.EmptyString); FContractDataHandle 0;
              FObjectHandle 0; FFbString None; FContractDataHandle 9]).
Example panics_example :
  fst (deserialize_objects (deser_new (snd (ds_builder dsBad [dsC]))) dsCon) = Panic /\
  exists j, belongs dsBad [dsCon] j /\ panics dsBad [dsCon] (read_before dsBad [] dsCon j) dsCon j.
Proof.
  assert (Hd : deserializes dsBad KMain [dsCon] [] [] (deser_new (snd (ds_builder dsBad [dsC])))).
  { constructor. apply ds_builds. vm_compute. reflexivity. }
  assert (Hr : fst (deserialize_objects (deser_new (snd (ds_builder dsBad [dsC]))) dsCon) = Panic) by (vm_compute; reflexivity).
  split; [exact Hr|].
  destruct (deserialize_objects (deser_new (snd (ds_builder dsBad [dsC]))) dsCon) as [r d'] eqn:E. cbn [fst] in Hr.
  destruct ds_hypotheses as [H1 _].
  destruct (proj1 (C26_panics_exactly _ _ _ _ _ dsCon r d' H1 Hd (or_introl eq_refl) (fun x => x) E) Hr) as [j [G1 [_ G2]]].
  exists j. auto.
Qed.
