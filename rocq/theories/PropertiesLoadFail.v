(** C64: loads that fail half-way. *)
From Verif Require Import BaseProofs PropertiesTags PropertiesBaseline SerProofs PropertiesSer DeserExact DeserPanic LoadAny PropertiesDeser PropertiesDeserExact PropertiesReach.
Import Coq.Strings.String.StringSyntax.
Open Scope string_scope.
Open Scope list_scope.
Open Scope nat_scope.

(** ** Specification *)

(** A program that goes on whatever a [deserialize_objects] call answers: errors are
    ignored and panics are caught.  [asked]: the contracts it asked for, in this order.
    The only calls left out are those that ask again for a contract and panic (see
    [C64_asking_again_can_load_twice_refuted]). *)
Inductive loads (fb : fb_baseline) (k : baseline_kind) (cs : list contract_inst) : list contract_inst -> deser -> Prop :=
| ld_new d : builds fb k cs d -> loads fb k cs [] (deser_new d)
| ld_call asked d c r d' :
    loads fb k cs asked d -> In c cs -> deserialize_objects d c = (r, d') -> (r = Panic -> ~ In c asked) ->
    loads fb k cs (asked ++ [c]) d'.

(** No two fields of the buffer use one state for an object reference (true of every
    buffer the serializer writes: [C64_written_buffers_are_unshared]). *)
Definition unshared (fb : fb_baseline) : Prop :=
  forall j i j' i' n oi, nth_error (buf_indices fb j) i = Some n -> nth_error (buf_indices fb j') i' = Some n ->
    buf_state fb n = Some (FObjectHandle oi) -> j = j' /\ i = i'.

(** Buffer object [j] can become an object of [c]. *)
Record readable (fb : fb_baseline) (cs : list contract_inst) (c : contract_inst) (j : nat) : Prop := {
  re_no_channels : ct_chans (ci_ty c) = [];
  re_count : length (buf_indices fb j) = length (ct_states (ci_ty c));
  re_states : forall o, buf_object fb j = Some o -> fo_states o <> None -> fb_states fb <> None;
  re_fields : forall i t, nth_error (ct_states (ci_ty c)) i = Some t ->
     exists fv, buf_field fb j i = Some fv /\ tag_is (p_type fv) t /\ fv <> FFbString None;
  re_contract_refs : forall i n, buf_field fb j i = Some (FContractDataHandle n) ->
     exists c', In c' cs /\ selected fb (ci_ty c') (N.to_nat n)
}.

(** Reading the objects of the contracts [asked], in the order of the buffer and up to
    the first that cannot be read, gets to [j]. *)
Definition got (fb : fb_baseline) (cs asked : list contract_inst) (j : nat) : Prop :=
  exists c, In c asked /\ belongs fb [c] j /\ forall j', belongs fb [c] j' -> j' <= j -> readable fb cs c j'.

(** ** Proofs *)
Lemma unshared_nodup fb j : unshared fb -> NoDup (ref_states fb j).
Proof.
  intros U. unfold ref_states. apply nodup_filter_pos. intros i i' n H1 H2 H3. apply is_ref_iff in H3. destruct H3 as [oi H3].
  exact (proj2 (U _ _ _ _ _ _ H1 H2 H3)).
Qed.
Lemma unshared_fresh fb d P j : unshared fb -> touched fb d P -> ~ In j P ->
  forall n, In n (ref_states fb j) -> ~ In n (map fst (ds_refs d)).
Proof.
  intros U [T _] Hj n Hn Hin. unfold ref_states in Hn. apply filter_In in Hn. destruct Hn as [H1 H2].
  apply is_ref_iff in H2. destruct H2 as [oi H2]. apply In_nth_error in H1. destruct H1 as [i H1].
  destruct (T _ Hin) as [j' [i' [H3 H4]]]. destruct (U _ _ _ _ _ _ H1 H4 H2) as [-> _]. auto.
Qed.

(** An object that is not made yet: a panic changes the tracked references only. *)
Lemma deserialize_obj_panicked fb k cs d s fs fc c j o d' :
  dinv fb k cs d s fs fc -> In c cs -> validate_obj (ds_b d) c j = Ok o ->
  (forall oh, ~ In (oh, j) (ds_objects d)) -> deserialize_obj d c j o = (Panic, d') ->
  dinv fb k cs d' s fs fc /\ ds_objects d' = ds_objects d.
Proof.
  intros Hd Hc Ev Hnm Ed. pose proof (di_b _ _ _ _ _ _ _ Hd) as Hb.
  pose proof (deserialize_obj_cases _ _ _ _ _ _ _ _ _ _ _ _ Hd Hc Ev Ed) as Hcase. cbn beta iota in Hcase.
  destruct Hcase as [[n [Hn Hs]]|[oh Hin]]; [|destruct (Hnm _ Hin)].
  destruct (validate_obj_ok _ _ _ _ _ _ _ _ _ _ Hb Hc Ev) as [Hbo [[cidx [Hfind Hbc]] [Hlen Hty]]].
  pose proof (obj_idxs_buf _ _ _ Hbo) as Hidx.
  assert (Hlen' : length (obj_idxs o) = length (ct_states (ci_ty c))) by (rewrite Hidx, map_length in Hlen; auto).
  unfold deserialize_obj in Ed. fold (obj_idxs o) in Ed.
  destruct (match fo_states o with Some l => _ | None => _ end). { injection Ed as <-. auto. }
  destruct (build_props (ds_b d) (ds_refs d) _) as [rb refs] eqn:Eb.
  destruct (build_props_spec fb (ds_b d) (db_fb _ _ _ _ _ _ _ Hb) _ _ _ _ (di_refs _ _ _ _ _ _ _ Hd) Eb) as [Hrok [Hincl _]].
  destruct rb as [[ps ns]|e|]; [exfalso|discriminate Ed|].
  - destruct (build_props_ok_inv fb (ds_b d) (db_fb _ _ _ _ _ _ _ Hb) _ _ _ _ _ Eb) as [_ [_ [H3 _]]].
    apply In_nth_error in Hn. destruct Hn as [i Hn]. rewrite Hidx, nth_error_map in Hn.
    destruct (nth_error (obj_idxs o) i) as [n0|] eqn:En; [|discriminate Hn]. injection Hn as <-.
    pose proof (nth_error_lt _ _ _ En) as Hlt. rewrite Hlen' in Hlt.
    destruct (nth_error (ct_states (ci_ty c)) i) as [t|] eqn:Et. 2:{ apply nth_error_None in Et. lia. }
    apply (H3 (mkPid t i (ci_handle c)) n0); [|exact Hs]. apply nth_error_In with i.
    rewrite nth_error_combine, state_ids_nth, Et, En. reflexivity.
  - injection Ed as <-. split; [|reflexivity]. apply dinv_more_refs; auto.
Qed.

(** What happens to one object that was not touched before. *)
Lemma one_object_fate fb k cs d s fs fc c idx j P :
  unshared fb -> dinv fb k cs d s fs fc -> In c cs -> find_serialized_contract fb (ci_ty c) = Ok idx ->
  buf_contract fb j = Some idx -> touched fb d P -> ~ In j P -> well_formed fb cs c j ->
  exists o d', validate_obj (ds_b d) c j = Ok o /\ deserialize_obj d c j o = (Ok tt, d').
Proof.
  intros U Hd Hc Hf Hj Ht HP Hw. apply (one_object_exact _ _ _ _ _ _ _ _ _ _ Hd Hc Hf Hj); auto.
  - intros oh Hin. apply HP. eapply (proj2 Ht); eauto.
  - apply unshared_nodup. exact U.
  - eapply unshared_fresh; eauto.
Qed.

(** The objects [l], not touched before: the ones before the first bad one are made. *)
Lemma each_stops fb k cs c idx : forall l d s fs fc r d' P,
  dinv fb k cs d s fs fc -> In c cs -> find_serialized_contract fb (ci_ty c) = Ok idx ->
  (forall j, In j l -> buf_contract fb j = Some idx) -> NoDup l -> touched fb d P ->
  (forall j oh, In j l -> ~ In (oh, j) (ds_objects d)) ->
  deserialize_each d c l = (r, d') ->
  exists l1 l2 s' fs' fc' new, dinv fb k cs d' s' fs' fc' /\ touched fb d' (l ++ P) /\
    l = l1 ++ l2 /\ ds_objects d' = ds_objects d ++ new /\ map snd new = l1 /\
    (forall j, In j l1 -> well_formed fb cs c j) /\
    match l2 with
    | [] => r = Ok tt
    | j :: _ => r <> Ok tt /\ (unshared fb -> (forall j, In j l -> ~ In j P) -> ~ well_formed fb cs c j)
    end.
Proof.
  induction l as [|j l IH]; intros d s fs fc r d' P Hd Hc Hf Hl Hnd Ht Hmd E; cbn [deserialize_each] in E.
  - injection E as <- <-. exists [], [], s, fs, fc, []. split; [exact Hd|]. split; [exact Ht|].
    split; [reflexivity|]. split; [symmetry; apply app_nil_r|]. split; [reflexivity|]. split; [intros ? []|reflexivity].
  - apply NoDup_cons_iff in Hnd. destruct Hnd as [Hnj Hnd]. pose proof (di_b _ _ _ _ _ _ _ Hd) as Hb.
    assert (Hj : buf_contract fb j = Some idx) by (apply Hl; left; auto).
    assert (Hnm : forall oh, ~ In (oh, j) (ds_objects d)) by (intros oh; apply Hmd; left; auto).
    assert (Htm : touched fb d ((j :: l) ++ P)) by (eapply touched_mono; eauto; apply incl_appr, incl_refl).
    assert (Hbad : (forall o d1, validate_obj (ds_b d) c j = Ok o -> deserialize_obj d c j o <> (Ok tt, d1)) ->
              unshared fb -> (forall j0, In j0 (j :: l) -> ~ In j0 P) -> ~ well_formed fb cs c j).
    { intros H U HP Hw. assert (HPj : ~ In j P) by (apply HP; left; auto). destruct (one_object_fate _ _ _ _ _ _ _ _ _ _ _ U Hd Hc Hf Hj Ht HPj Hw) as [o [d1 [E1 E2]]]. exact (H _ _ E1 E2). }
    destruct (validate_obj (ds_b d) c j) as [o|e|] eqn:Ev.
    2,3: (injection E as <- <-; exists [], (j :: l), s, fs, fc, []; rewrite app_nil_r; split; [exact Hd|]; split; [exact Htm|];
          split; [reflexivity|]; split; [reflexivity|]; split; [reflexivity|]; split; [intros ? []|];
          split; [discriminate|]; apply Hbad; intros o d1 E'; discriminate E').
    destruct (deserialize_obj d c j o) as [r1 d1] eqn:Ed.
    destruct (validate_obj_ok _ _ _ _ _ _ _ _ _ _ Hb Hc Ev) as [Hbo _].
    pose proof (deserialize_obj_touched fb d c j o P (db_fb _ _ _ _ _ _ _ Hb) Hbo Ht _ _ Ed) as Ht1.
    assert (Ht2 : touched fb d1 ((j :: l) ++ P)).
    { eapply touched_mono; eauto. intros x Hx. cbn. rewrite in_app_iff. cbn in Hx. tauto. }
    destruct (deserialize_obj_spec _ _ _ _ _ _ _ _ _ _ _ _ Hd Hc Ev Ed) as [_ H].
    destruct r1 as [[]|e|].
    + destruct H as [s1 [fs1 [fc1 [oh [Hd1 Ho]]]]].
      destruct (deserialize_obj_ok_inv _ _ _ _ _ _ _ _ _ _ _ Hd Hc Ev Ed) as [Hw _].
      destruct (IH d1 s1 fs1 fc1 r d' (j :: P)) as [l1 [l2 [s' [fs' [fc' [new [H1 [H2 [H3 [H4 [H5 [H6 H7]]]]]]]]]]]]; auto.
      { intros j' Hj'. apply Hl. right; auto. }
      { intros j' oh' Hj' Hin. rewrite Ho in Hin. apply in_app_or in Hin. destruct Hin as [Hin|[Hin|[]]].
        - apply (Hmd j' oh'); [right; auto|exact Hin].
        - injection Hin as _ <-. auto. }
      exists (j :: l1), l2, s', fs', fc', ((oh, j) :: new). split; [exact H1|]. split.
      { eapply touched_mono; eauto. intros x Hx. apply in_app_or in Hx. cbn. rewrite in_app_iff. cbn in Hx. tauto. }
      split; [cbn; f_equal; exact H3|]. split; [rewrite H4, Ho, <- app_assoc; reflexivity|].
      split; [cbn; f_equal; exact H5|]. split; [intros j' [<-|Hj']; auto|].
      destruct l2 as [|j2 l2]; [exact H7|]. destruct H7 as [H7 H8]. split; [exact H7|]. intros U HP. apply H8; [exact U|].
      intros j' Hj' [<-|Hin]; [auto|]. apply (HP j'); [right; auto|auto].
    + injection E as <- <-. destruct H as [s1 [fs1 [fc1 [Hd1 Ho]]]].
      exists [], (j :: l), s1, fs1, fc1, []. rewrite app_nil_r. split; [exact Hd1|]. split; [exact Ht2|].
      split; [reflexivity|]. split; [exact Ho|]. split; [reflexivity|]. split; [intros ? []|]. split; [discriminate|].
      apply Hbad. intros o' d2 E' E2. injection E' as <-. congruence.
    + injection E as <- <-. destruct (deserialize_obj_panicked _ _ _ _ _ _ _ _ _ _ _ Hd Hc Ev Hnm Ed) as [Hd1 Ho].
      exists [], (j :: l), s, fs, fc, []. rewrite app_nil_r. split; [exact Hd1|]. split; [exact Ht2|].
      split; [reflexivity|]. split; [exact Ho|]. split; [reflexivity|]. split; [intros ? []|]. split; [discriminate|].
      apply Hbad. intros o' d2 E' E2. injection E' as <-. congruence.
Qed.

(** Asking again when the first object was made before: nothing is made. *)
Lemma each_again fb k cs c : forall l d s fs fc r d' P,
  dinv fb k cs d s fs fc -> In c cs -> touched fb d P -> incl l P ->
  (forall j t, l = j :: t -> exists oh, In (oh, j) (ds_objects d)) ->
  deserialize_each d c l = (r, d') -> r <> Panic ->
  exists s' fs' fc', dinv fb k cs d' s' fs' fc' /\ touched fb d' P /\ ds_objects d' = ds_objects d.
Proof.
  intros [|j l] d s fs fc r d' P Hd Hc Ht HP Hj E Hr; cbn [deserialize_each] in E.
  - injection E as <- <-. exists s, fs, fc. auto.
  - pose proof (di_b _ _ _ _ _ _ _ Hd) as Hb.
    destruct (validate_obj (ds_b d) c j) as [o|e|] eqn:Ev.
    2:{ injection E as <- <-. exists s, fs, fc. auto. }
    2:{ injection E as <- <-. congruence. }
    destruct (deserialize_obj d c j o) as [r1 d1] eqn:Ed.
    destruct (validate_obj_ok _ _ _ _ _ _ _ _ _ _ Hb Hc Ev) as [Hbo _].
    pose proof (deserialize_obj_touched fb d c j o P (db_fb _ _ _ _ _ _ _ Hb) Hbo Ht _ _ Ed) as Ht1.
    destruct (deserialize_obj_spec _ _ _ _ _ _ _ _ _ _ _ _ Hd Hc Ev Ed) as [_ H].
    destruct r1 as [[]|e|].
    + exfalso. destruct (Hj _ _ eq_refl) as [oh Hin]. eapply deserialize_obj_ok_new; eauto.
    + injection E as <- <-. destruct H as [s1 [fs1 [fc1 [Hd1 Ho]]]]. exists s1, fs1, fc1. split; [exact Hd1|]. split; [|exact Ho].
      eapply touched_mono; eauto. intros x [<-|Hx]; auto. apply HP. left; auto.
    + injection E as <- <-. congruence.
Qed.

Definition of_contract (fb : fb_baseline) (c : contract_inst) (j : nat) : Prop :=
  exists idx, find_serialized_contract fb (ci_ty c) = Ok idx /\ buf_contract fb j = Some idx.
Lemma of_contract_one fb cs c j : cs_ok cs -> In c cs -> (belongs fb [c] j <-> of_contract fb c j).
Proof.
  intros HL Hc. unfold cs_ok in HL. rewrite Forall_forall in HL. split.
  - intros [c' [i [[<-|[]] [H1 H2]]]]. apply find_contract_iff in H1; auto. exists i. auto.
  - intros [i [H1 H2]]. exists c, i. split; [left; auto|]. split; auto. apply find_contract_iff; auto.
Qed.
Lemma readable_wf fb cs c j : cs_ok cs -> (readable fb cs c j <-> well_formed fb cs c j).
Proof.
  intros HL. unfold cs_ok in HL. rewrite Forall_forall in HL. split.
  - intros [A1 A2 A3 A4 A5]. split; auto. split; auto. split; auto. split.
    + intros i t Ht. destruct (A4 _ _ Ht) as [fv [B1 [B2 B3]]]. exists fv. split; auto. split; auto.
      apply C28_tag_equals_type_iff_same. auto.
    + intros i n Hn. destruct (A5 _ _ Hn) as [c' [B1 B2]]. exists c'. split; auto. apply find_contract_iff; auto.
  - intros [A1 [A2 [A3 [A4 A5]]]]. constructor; auto.
    + intros i t Ht. destruct (A4 _ _ Ht) as [fv [B1 [B2 B3]]]. exists fv. split; auto. split; auto.
      apply C28_tag_equals_type_iff_same. auto.
    + intros i n Hn. destruct (A5 _ _ Hn) as [c' [B1 B2]]. exists c'. split; auto. apply find_contract_iff; auto.
Qed.

(** After a history: the objects made of each contract come before the others of it,
    fit, and stop at the first bad one. *)
Record lstate (fb : fb_baseline) (k : baseline_kind) (cs asked : list contract_inst) (d : deser) : Prop := {
  ls_inv : exists s fs fc, dinv fb k cs d s fs fc;
  ls_incl : incl asked cs;
  ls_touched : exists P, touched fb d P /\ forall j, In j P <-> exists c, In c asked /\ of_contract fb c j;
  ls_good : forall o j c, In (o, j) (ds_objects d) -> In c asked -> of_contract fb c j ->
    forall j', of_contract fb c j' -> j' <= j -> well_formed fb cs c j' /\ exists o', In (o', j') (ds_objects d);
  ls_all : unshared fb -> forall c j, In c asked -> of_contract fb c j ->
    (forall j', of_contract fb c j' -> j' <= j -> well_formed fb cs c j') -> exists o, In (o, j) (ds_objects d)
}.

Lemma loads_step fb k cs asked d c r d' :
  lstate fb k cs asked d -> In c cs -> deserialize_objects d c = (r, d') -> (r = Panic -> ~ In c asked) ->
  lstate fb k cs (asked ++ [c]) d' /\
  (~ In c asked -> (r = Ok tt -> forall j, of_contract fb c j -> well_formed fb cs c j) /\
     (unshared fb -> (forall j, of_contract fb c j -> well_formed fb cs c j) -> r = Ok tt)).
Proof.
  intros [[s [fs [fc Hd]]] Hi [P [Ht HP]] Hg Ha] Hc E Hp. pose proof (di_b _ _ _ _ _ _ _ Hd) as Hb.
  destruct (db_found _ _ _ _ _ _ _ Hb _ Hc) as [idx Hf].
  rewrite (deserialize_objects_each _ _ _ _ _ _ _ _ _ Hd Hc Hf) in E.
  assert (Hof : forall j, of_contract fb c j <-> In j (objects_of fb idx)).
  { intros j. rewrite objects_of_in. split; [intros [i [H1 H2]]; congruence|]. intros H. exists idx. auto. }
  assert (Hsame : forall c' j, In c' cs -> of_contract fb c' j -> of_contract fb c j -> c' = c).
  { intros c' j Hc' [i [H1 H2]] [i' [H3 H4]]. assert (i' = i) by congruence. subst i'. eapply same_contract; [exact Hb| | | |]; eauto. }
  assert (Hi' : incl (asked ++ [c]) cs).
  { intros x Hx. apply in_app_or in Hx. destruct Hx as [Hx|[<-|[]]]; auto. }
  assert (HP' : forall Q, (forall j, In j Q <-> In j (objects_of fb idx) \/ In j P) ->
            forall j, In j Q <-> exists c0, In c0 (asked ++ [c]) /\ of_contract fb c0 j).
  { intros Q HQ j. rewrite HQ, HP, <- Hof. split.
    - intros [H|[c0 [H1 H2]]]; [exists c|exists c0]; (split; [apply in_or_app|]); auto. right; left; auto.
    - intros [c0 [H1 H2]]. apply in_app_or in H1. destruct H1 as [H1|[<-|[]]]; [right; eauto|left; exact H2]. }
  destruct (in_dec Nat.eq_dec (hd 0 (objects_of fb idx)) (map snd (ds_objects d))) as [Hmade|Hmade].
  - (* the first object was made before *)
    destruct (objects_of fb idx) as [|j0 t] eqn:El.
    { injection E as <- <-. split.
      - constructor; [exists s, fs, fc; exact Hd|exact Hi'|exists P; split; [exact Ht|]; apply HP'; cbn; tauto| |].
        + intros o j c0 Ho Hc0 Hj. apply in_app_or in Hc0. destruct Hc0 as [Hc0|[<-|[]]]; [eapply Hg; eauto|apply Hof in Hj; destruct Hj].
        + intros U c0 j Hc0 Hj. apply in_app_or in Hc0. destruct Hc0 as [Hc0|[<-|[]]]; [eapply Ha; eauto|apply Hof in Hj; destruct Hj].
      - intros _. split; [intros _ j Hj; apply Hof in Hj; destruct Hj|reflexivity]. }
    cbn [hd] in Hmade. apply in_map_iff in Hmade. destruct Hmade as [[o0 j'] [Ej Ho0]]. cbn [snd] in Ej. subst j'.
    assert (Hj0 : of_contract fb c j0) by (apply Hof; left; auto).
    assert (Hin : In c asked).
    { assert (H : In j0 P) by (eapply (proj2 Ht); eauto). apply HP in H. destruct H as [c0 [H1 H2]].
      rewrite <- (Hsame _ _ (Hi _ H1) H2 Hj0). exact H1. }
    assert (Hsub : incl (j0 :: t) P) by (intros j Hj; apply HP; exists c; split; [exact Hin|apply Hof; exact Hj]).
    destruct (each_again fb k cs c (j0 :: t) d s fs fc r d' P Hd Hc Ht Hsub) as [s' [fs' [fc' [H1 [H2 H3]]]]]; auto.
    { intros j t' Ej. injection Ej as <- _. exists o0. exact Ho0. }
    { intros Hr. exact (Hp Hr Hin). }
    split; [|intros H; destruct (H Hin)].
    assert (Hcut : forall c0, In c0 (asked ++ [c]) -> In c0 asked).
    { intros c0 Hx. apply in_app_or in Hx. destruct Hx as [Hx|[<-|[]]]; auto. }
    constructor; [exists s', fs', fc'; exact H1|exact Hi'|exists P; split; [exact H2|]; apply HP'; intros j; split; [auto|intros [Hj|Hj]; auto]| |];
      rewrite H3.
    + intros o j c0 Ho Hc0 Hj. apply (Hg o j c0 Ho (Hcut _ Hc0) Hj).
    + intros U c0 j Hc0. apply (Ha U c0 j (Hcut _ Hc0)).
  - (* none was made before *)
    assert (Hnone : forall j oh, In j (objects_of fb idx) -> ~ In (oh, j) (ds_objects d)).
    { intros j oh Hj Ho. apply Hmade. destruct (objects_of fb idx) as [|j0 t] eqn:El; [destruct Hj|]. cbn [hd].
      assert (Hjc : of_contract fb c j) by (apply Hof; exact Hj).
      assert (Hin : In c asked).
      { assert (H : In j P) by (eapply (proj2 Ht); eauto). apply HP in H. destruct H as [c0 [H1 H2]].
        rewrite <- (Hsame _ _ (Hi _ H1) H2 Hjc). exact H1. }
      destruct (Hg _ _ _ Ho Hin Hjc j0) as [_ [o' Ho']].
      - apply Hof. left; auto.
      - destruct Hj as [<-|Hj]; [lia|]. pose proof (objects_of_least _ _ _ _ _ El Hj). lia.
      - apply in_map_iff. exists (o', j0). auto. }
    destruct (each_stops fb k cs c idx (objects_of fb idx) d s fs fc r d' P Hd Hc Hf) as [l1 [l2 [s' [fs' [fc' [new [H1 [H2 [H3 [H4 [H5 [H6 H7]]]]]]]]]]]]; auto.
    { intros j Hj. apply objects_of_in. exact Hj. }
    { apply objects_of_nodup. }
    assert (Hnew : forall j, In j l1 <-> exists o, In (o, j) new).
    { intros j. rewrite <- H5, in_map_iff. split.
      - intros [[o j'] [Ej Ho]]. cbn in Ej. subst j'. eauto.
      - intros [o Ho]. exists (o, j). auto. }
    assert (Hdown : forall j j', In j l1 -> of_contract fb c j' -> j' <= j -> In j' l1).
    { intros j j' Hj Hj' Hle. destruct l2 as [|j2 l2]. { rewrite app_nil_r in H3. rewrite <- H3. apply Hof. exact Hj'. }
      destruct (objects_of_split _ _ _ _ _ H3) as [Hl1 _]. apply Hl1 in Hj. apply Hl1. split; [|lia].
      apply objects_of_in. apply Hof. exact Hj'. }
    split.
    + constructor; [exists s', fs', fc'; exact H1|exact Hi'|exists (objects_of fb idx ++ P); split; [exact H2|]; apply HP'; intros j; apply in_app_iff| |].
      * intros o j c0 Ho Hc0 Hj j' Hj' Hle. rewrite H4 in Ho |- *. apply in_app_or in Ho.
        assert (Hkeep : (exists o', In (o', j') (ds_objects d)) -> exists o', In (o', j') (ds_objects d ++ new)).
        { intros [o' Ho']. exists o'. apply in_or_app. auto. }
        destruct Ho as [Ho|Ho].
        -- assert (Hc0' : In c0 asked).
           { assert (H : In j P) by (eapply (proj2 Ht); eauto). apply HP in H. destruct H as [c1 [K1 K2]].
             destruct Hj as [i [L1 L2]]. destruct K2 as [i' [M1 M2]]. assert (i' = i) by congruence. subst i'.
             rewrite (same_contract _ _ _ _ _ _ _ c1 c0 i Hb (Hi _ K1) (Hi' _ Hc0) M1 L1). exact K1. }
           destruct (Hg _ _ _ Ho Hc0' Hj j' Hj' Hle) as [K1 K2]. split; auto.
        -- assert (Hjl : In j l1) by (apply Hnew; eauto).
           assert (Hjc : of_contract fb c j) by (apply Hof; rewrite H3; apply in_or_app; auto).
           assert (c0 = c) by (apply (Hsame c0 j); auto). subst c0.
           pose proof (Hdown _ _ Hjl Hj' Hle) as Hj'l. split; [auto|]. apply Hnew in Hj'l. destruct Hj'l as [o' Ho'].
           exists o'. apply in_or_app. auto.
      * intros U c0 j Hc0 Hj Hall. rewrite H4.
        destruct (in_dec cinst_dec c0 asked) as [Hin|Hnin].
        -- destruct (Ha U c0 j Hin Hj Hall) as [o Ho]. exists o. apply in_or_app. auto.
        -- apply in_app_or in Hc0. destruct Hc0 as [Hc0|[<-|[]]]; [destruct (Hnin Hc0)|].
           assert (Hjl : In j l1).
           { destruct l2 as [|j2 l2]. { rewrite app_nil_r in H3. rewrite <- H3. apply Hof. exact Hj. }
             destruct (objects_of_split _ _ _ _ _ H3) as [Hl1 Hj2]. apply Hl1. split; [apply objects_of_in, Hof; exact Hj|].
             destruct (Nat.lt_ge_cases j j2) as [|Hge]; [auto|]. exfalso. apply (proj2 H7 U).
             - intros x Hx Hx'. apply HP in Hx'. destruct Hx' as [c1 [K1 K2]]. apply Hof in Hx. apply Hnin.
               rewrite <- (Hsame c1 x); auto.
             - apply Hall; [|exact Hge]. exists idx. auto. }
           apply Hnew in Hjl. destruct Hjl as [o Ho]. exists o. apply in_or_app. auto.
    + intros Hnin. split.
      * intros -> j Hj. destruct l2 as [|j2 l2]; [|destruct (proj1 H7 eq_refl)]. rewrite app_nil_r in H3. apply H6.
        rewrite <- H3. apply Hof. exact Hj.
      * intros U Hall. destruct l2 as [|j2 l2]; [exact H7|]. exfalso. destruct H7 as [_ H7]. apply H7; auto.
        -- intros x Hx Hx'. apply HP in Hx'. destruct Hx' as [c1 [K1 K2]]. apply Hof in Hx. apply Hnin.
           rewrite <- (Hsame c1 x); auto.
        -- apply Hall. apply Hof. rewrite H3. apply in_or_app. right; left; auto.
Qed.

Lemma loads_state fb k cs asked d : loads fb k cs asked d -> lstate fb k cs asked d.
Proof.
  induction 1 as [d Hb|asked d c r d' H IH Hc E Hp].
  - destruct (builds_inv _ _ _ _ Hb) as [s [fs [fc [Hd Ho]]]].
    constructor; [exists s, fs, fc; apply dinv_new; auto|intros ? []| | |].
    + exists []. split; [split; cbn; [intros n []|intros o j []]|]. intros j. split; [intros []|intros [c [[] _]]].
    + intros o j c [].
    + intros U c j [].
  - exact (proj1 (loads_step _ _ _ _ _ _ _ _ IH Hc E Hp)).
Qed.
Lemma got_iff fb k cs asked d j : cs_ok cs -> unshared fb -> lstate fb k cs asked d ->
  ((exists o, In (o, j) (ds_objects d)) <-> got fb cs asked j).
Proof.
  intros HL U [_ Hi [P [Ht HP]] Hg Ha]. split.
  - intros [o Ho]. assert (Hj : In j P) by (eapply (proj2 Ht); eauto). apply HP in Hj. destruct Hj as [c [H1 H2]].
    exists c. split; [exact H1|]. split; [apply (of_contract_one fb cs); auto|]. intros j' Hj' Hle. apply readable_wf; [exact HL|].
    apply (of_contract_one fb cs) in Hj'; auto. apply (Hg o j c Ho H1 H2 j' Hj' Hle).
  - intros [c [H1 [H2 H3]]]. apply (of_contract_one fb cs) in H2; auto. apply (Ha U c j H1 H2). intros j' Hj' Hle.
    apply readable_wf; [exact HL|]. apply H3; [apply (of_contract_one fb cs); auto|exact Hle].
Qed.

(** ** Theorems *)

(** Whichever calls failed or panicked: the finished baseline holds, of each contract
    that was asked for, exactly the objects before the first one that cannot be read;
    each of them complete, in one-to-one correspondence. *)
Theorem C64_what_failed_loads_leave :
  forall fb k cs asked d b',
    cs_ok cs -> unshared fb -> loads fb k cs asked d -> finishes d (Ok b') ->
    exists from, conforms fb k cs b' from /\ forall j, (exists o, from j o) <-> got fb cs asked j.
Proof.
  intros fb k cs asked d b' HL U H Hf. pose proof (loads_state _ _ _ _ _ H) as HS.
  destruct (ls_inv _ _ _ _ _ HS) as [s [fs [fc Hd]]].
  exists (made_of d). split; [exact (proj1 (conforms_of_dinv _ _ _ _ _ _ _ _ HL Hd Hf))|].
  intros j. apply (got_iff _ _ _ _ _ _ HL U HS).
Qed.
Print Assumptions C64_what_failed_loads_leave.

(** In any buffer, also one whose fields share states: what is loaded of a contract comes
    before what is not, and can be read. *)
Theorem C64_loaded_objects_come_first :
  forall fb k cs asked d b',
    cs_ok cs -> loads fb k cs asked d -> finishes d (Ok b') ->
    exists from, conforms fb k cs b' from /\
      forall j o, from j o -> exists c, In c asked /\ belongs fb [c] j /\
        forall j', belongs fb [c] j' -> j' <= j -> readable fb cs c j' /\ exists o', from j' o'.
Proof.
  intros fb k cs asked d b' HL H Hf. pose proof (loads_state _ _ _ _ _ H) as HS.
  destruct (ls_inv _ _ _ _ _ HS) as [s [fs [fc Hd]]].
  exists (made_of d). split; [exact (proj1 (conforms_of_dinv _ _ _ _ _ _ _ _ HL Hd Hf))|].
  intros j o Ho. destruct HS as [_ Hi [P [Ht HP]] Hg _].
  assert (Hj : In j P) by (eapply (proj2 Ht); eauto). apply HP in Hj. destruct Hj as [c [H1 H2]].
  exists c. split; [exact H1|]. split; [apply (of_contract_one fb cs); auto|]. intros j' Hj' Hle.
  apply (of_contract_one fb cs) in Hj'; auto. destruct (Hg o j c Ho H1 H2 j' Hj' Hle) as [K1 K2].
  split; [apply readable_wf; auto|exact K2].
Qed.
Print Assumptions C64_loaded_objects_come_first.

(** [finish] then never panics, and succeeds exactly if what was loaded refers to nothing
    else. *)
Theorem C64_finish_after_failures :
  forall fb k cs asked d r,
    cs_ok cs -> unshared fb -> loads fb k cs asked d -> finishes d r ->
    r <> Panic /\
    ((exists b', r = Ok b') <->
     (forall j i oi, got fb cs asked j -> buf_field fb j i = Some (FObjectHandle oi) -> got fb cs asked (N.to_nat oi))).
Proof.
  intros fb k cs asked d r HL U H Hf. pose proof (loads_state _ _ _ _ _ H) as HS.
  destruct (ls_inv _ _ _ _ _ HS) as [s [fs [fc Hd]]].
  pose proof (fun j => got_iff _ _ _ _ _ j HL U HS) as Hgot.
  pose proof (finish_spec _ _ _ _ _ _ _ _ Hd Hf) as HF.
  destruct r as [b'|e|]; [| |destruct HF]; (split; [discriminate|]).
  - split; [intros _|eauto]. intros j i oi Hj Hfld. apply Hgot in Hj. destruct Hj as [o Ho]. apply Hgot.
    destruct HF as [_ HF]. eapply HF; eauto.
  - destruct HF as [_ [o [j [i [oi [Ho [Hfld Hno]]]]]]]. split; [intros [b' E]; discriminate E|].
    intros Hall. exfalso. assert (Hj : got fb cs asked j) by (apply Hgot; eauto).
    apply Hall with (i := i) (oi := oi) in Hj; [|exact Hfld]. apply Hgot in Hj. destruct Hj as [o' Ho']. exact (Hno _ Ho').
Qed.
Print Assumptions C64_finish_after_failures.

(** Earlier failures have no influence on a call for another contract: it succeeds
    exactly if every object of the contract can be read. *)
Theorem C64_answer_after_failures :
  forall fb k cs asked d c r d',
    cs_ok cs -> unshared fb -> loads fb k cs asked d -> In c cs -> ~ In c asked ->
    deserialize_objects d c = (r, d') ->
    (r = Ok tt <-> forall j, belongs fb [c] j -> readable fb cs c j).
Proof.
  intros fb k cs asked d c r d' HL U H Hc Hn E. pose proof (loads_state _ _ _ _ _ H) as HS.
  destruct (loads_step _ _ _ _ _ _ _ _ HS Hc E (fun _ => Hn)) as [_ K]. destruct (K Hn) as [K1 K2]. split.
  - intros Hr j Hj. apply (of_contract_one fb cs) in Hj; auto. apply readable_wf; auto.
  - intros Hall. apply K2; [exact U|]. intros j Hj. apply readable_wf; [exact HL|]. apply Hall. apply (of_contract_one fb cs); auto.
Qed.
Print Assumptions C64_answer_after_failures.

(** The order of the calls does not matter, and asking again for a contract loads
    nothing more. *)
Theorem C64_order_and_retries_do_not_matter :
  forall fb k cs asked1 d1 asked2 d2 b1 r2,
    cs_ok cs -> unshared fb -> loads fb k cs asked1 d1 -> loads fb k cs asked2 d2 ->
    (forall c, In c asked1 <-> In c asked2) -> finishes d1 (Ok b1) -> finishes d2 r2 ->
    exists b2 from1 from2, r2 = Ok b2 /\ conforms fb k cs b1 from1 /\ conforms fb k cs b2 from2 /\
      forall j, (exists o, from1 j o) <-> (exists o, from2 j o).
Proof.
  intros fb k cs asked1 d1 asked2 d2 b1 r2 HL U H1 H2 Hs F1 F2.
  assert (Hg : forall j, got fb cs asked1 j <-> got fb cs asked2 j).
  { intros j. unfold got. split; intros [c [K1 K2]]; exists c; (split; [apply Hs; exact K1|exact K2]). }
  destruct (C64_finish_after_failures _ _ _ _ _ _ HL U H1 F1) as [_ G1].
  destruct (C64_finish_after_failures _ _ _ _ _ _ HL U H2 F2) as [_ G2].
  destruct (proj2 G2) as [b2 E2].
  { intros j i oi Hj Hf. apply Hg. apply (proj1 G1 (ex_intro _ b1 eq_refl) j i oi); [apply Hg; exact Hj|exact Hf]. }
  subst r2. destruct (C64_what_failed_loads_leave _ _ _ _ _ _ HL U H1 F1) as [from1 [C1 D1]].
  destruct (C64_what_failed_loads_leave _ _ _ _ _ _ HL U H2 F2) as [from2 [C2 D2]].
  exists b2, from1, from2. split; [reflexivity|]. split; [exact C1|]. split; [exact C2|].
  intros j. rewrite D1, D2. apply Hg.
Qed.
Print Assumptions C64_order_and_retries_do_not_matter.

(** *** Asking again, with the panic caught *)

(** Any calls whatever; [asked]: the contracts of the calls. *)
Inductive loads_any (fb : fb_baseline) (k : baseline_kind) (cs : list contract_inst) : list contract_inst -> deser -> Prop :=
| la_new d : builds fb k cs d -> loads_any fb k cs [] (deser_new d)
| la_call asked d c r d' : loads_any fb k cs asked d -> In c cs -> deserialize_objects d c = (r, d') ->
    loads_any fb k cs (asked ++ [c]) d'.

(** Like [conforms], but [from] need not be one-to-one: a buffer object may have several
    copies, if it holds no object references; [target j o]: references to buffer object
    [j] have become references to [o]. *)
Record conforms_copies (fb : fb_baseline) (k : baseline_kind) (cs : list contract_inst) (b' : baseline)
    (from target : nat -> index -> Prop) : Prop := {
  cc_kind : b_kind b' = k;
  cc_from_one : forall j j' o, from j o -> from j' o -> j = j';
  cc_copies : forall j o o', from j o -> from j o' -> o = o' \/ forall i oi, buf_field fb j i <> Some (FObjectHandle oi);
  cc_target : forall j, (exists o, from j o) -> exists o, target j o;
  cc_target_one : forall j o o', target j o -> target j o' -> o = o';
  cc_target_from : forall j o, target j o -> from j o;
  cc_contracts : forall h, con_at b' h <> None <-> exists c, In c cs /\ ci_handle c = h;
  cc_contract : forall c, In c cs -> exists cd,
      con_at b' (ci_handle c) = Some cd /\ cd_id cd = ct_id (ci_ty c) /\
      forall o, In o (cd_objects cd) <-> exists ob, obj_at b' o = Some ob /\ o_contract ob = ci_handle c;
  cc_objects : forall o, obj_at b' o <> None <-> exists j, from j o;
  cc_object : forall j o, from j o -> exists c idx ob,
      In c cs /\ selected fb (ci_ty c) idx /\ buf_contract fb j = Some idx /\
      obj_at b' o = Some ob /\ o_contract ob = ci_handle c /\ o_warp ob = timewarp_default /\
      o_channels ob = [] /\ length (buf_indices fb j) = length (ct_states (ci_ty c)) /\
      forall i t, nth_error (ct_states (ci_ty c)) i = Some t -> exists fv v,
        buf_field fb j i = Some fv /\ tag_is (p_type fv) t /\
        field_of b' c i o = Some v /\ prop_type v = t /\
        stands_for target
          (fun n h => exists c', In c' cs /\ ci_handle c' = h /\ selected fb (ci_ty c') n) fv v
}.

Lemma deserialize_obj_panicked_any fb k cs d M s fs fc c j o d' :
  dinvx fb k cs d M s fs fc -> In c cs -> validate_obj (ds_b d) c j = Ok o ->
  (forall oh, ~ In (oh, j) (ds_objects d)) -> deserialize_obj d c j o = (Panic, d') ->
  dinvx fb k cs d' M s fs fc /\ ds_objects d' = ds_objects d.
Proof.
  intros Hd Hc Ev Hnm Ed. pose proof (dx_b _ _ _ _ _ _ _ _ Hd) as Hb.
  pose proof (deserialize_obj_cases_any _ _ _ _ _ _ _ _ _ _ _ _ _ Hd Hc Ev Ed) as Hcase. cbn beta iota in Hcase.
  destruct Hcase as [[n [Hn Hs]]|[oh Hin]]; [|destruct (Hnm _ Hin)].
  destruct (validate_obj_ok _ _ _ _ _ _ _ _ _ _ Hb Hc Ev) as [Hbo [[cidx [Hfind Hbc]] [Hlen Hty]]].
  pose proof (obj_idxs_buf _ _ _ Hbo) as Hidx.
  assert (Hlen' : length (obj_idxs o) = length (ct_states (ci_ty c))) by (rewrite Hidx, map_length in Hlen; auto).
  unfold deserialize_obj in Ed. fold (obj_idxs o) in Ed.
  destruct (match fo_states o with Some l => _ | None => _ end). { injection Ed as <-. auto. }
  destruct (build_props (ds_b d) (ds_refs d) _) as [rb refs] eqn:Eb.
  destruct (build_props_spec fb (ds_b d) (db_fb _ _ _ _ _ _ _ Hb) _ _ _ _ (dx_refs _ _ _ _ _ _ _ _ Hd) Eb) as [Hrok [Hincl _]].
  destruct rb as [[ps ns]|e|]; [exfalso|discriminate Ed|].
  - destruct (build_props_ok_inv fb (ds_b d) (db_fb _ _ _ _ _ _ _ Hb) _ _ _ _ _ Eb) as [_ [_ [H3 _]]].
    apply In_nth_error in Hn. destruct Hn as [i Hn]. rewrite Hidx, nth_error_map in Hn.
    destruct (nth_error (obj_idxs o) i) as [n0|] eqn:En; [|discriminate Hn]. injection Hn as <-.
    pose proof (nth_error_lt _ _ _ En) as Hlt. rewrite Hlen' in Hlt.
    destruct (nth_error (ct_states (ci_ty c)) i) as [t|] eqn:Et. 2:{ apply nth_error_None in Et. lia. }
    apply (H3 (mkPid t i (ci_handle c)) n0); [|exact Hs]. apply nth_error_In with i.
    rewrite nth_error_combine, state_ids_nth, Et, En. reflexivity.
  - injection Ed as <-. split; [|reflexivity]. apply dinvx_more_refs; auto.
Qed.

Lemma one_object_fate_any fb k cs d M s fs fc c idx j P :
  unshared fb -> dinvx fb k cs d M s fs fc -> In c cs -> find_serialized_contract fb (ci_ty c) = Ok idx ->
  buf_contract fb j = Some idx -> touched fb d P -> ~ In j P -> well_formed fb cs c j ->
  exists o d', validate_obj (ds_b d) c j = Ok o /\ deserialize_obj d c j o = (Ok tt, d').
Proof.
  intros U Hd Hc Hf Hj Ht HP Hw. apply (one_object_exact_any _ _ _ _ _ _ _ _ _ _ _ Hd Hc Hf Hj); auto.
  - intros oh Hin. apply HP. eapply (proj2 Ht); eauto.
  - apply unshared_nodup. exact U.
  - eapply unshared_fresh; eauto.
Qed.

Lemma deserialize_obj_objects d c j o r d' : deserialize_obj d c j o = (r, d') ->
  match r with
  | Ok _ => exists oh, ds_objects d' = ds_objects d ++ [(oh, j)]
  | Err _ => ds_objects d' = ds_objects d
  | Panic => True
  end.
Proof.
  unfold deserialize_obj. intros E.
  destruct (match fo_states o with Some l => _ | None => _ end); [injection E as <- <-; exact Logic.I|].
  destruct (build_props (ds_b d) (ds_refs d) _) as [[[ps ns]|e|] refs]; [|injection E as <- <-; reflexivity|injection E as <- <-; exact Logic.I].
  destruct (object_create (d_base (ds_b d)) c ps []) as [[oh|e|] b1]; [|injection E as <- <-; reflexivity|injection E as <- <-; exact Logic.I].
  destruct (track_nulls b1 oh ns (ds_states d)) as [[u|e|] st]; [|injection E as <- <-; reflexivity|injection E as <- <-; exact Logic.I].
  destruct (bm_fresh index_eqb Nat.eqb oh j (ds_objects d)) eqn:Ef; injection E as <- <-; [|exact Logic.I].
  exists oh. cbn [ds_objects]. apply bm_insert_fresh. exact Ef.
Qed.
Lemma each_stops_any fb k cs c idx : forall l d M s fs fc r d' P,
  dinvx fb k cs d M s fs fc -> In c cs -> find_serialized_contract fb (ci_ty c) = Ok idx ->
  (forall j, In j l -> buf_contract fb j = Some idx) -> NoDup l -> touched fb d P ->
  (forall j oh, In j l -> ~ In (oh, j) (ds_objects d)) ->
  deserialize_each d c l = (r, d') ->
  exists l1 l2 M' s' fs' fc' new, dinvx fb k cs d' M' s' fs' fc' /\ touched fb d' (l ++ P) /\
    l = l1 ++ l2 /\ ds_objects d' = ds_objects d ++ new /\ map snd new = l1 /\
    (forall j, In j l1 -> well_formed fb cs c j) /\
    match l2 with
    | [] => r = Ok tt
    | j :: _ => r <> Ok tt /\ (unshared fb -> (forall j, In j l -> ~ In j P) -> ~ well_formed fb cs c j)
    end.
Proof.
  induction l as [|j l IH]; intros d M s fs fc r d' P Hd Hc Hf Hl Hnd Ht Hmd E; cbn [deserialize_each] in E.
  - injection E as <- <-. exists [], [], M, s, fs, fc, []. split; [exact Hd|]. split; [exact Ht|].
    split; [reflexivity|]. split; [symmetry; apply app_nil_r|]. split; [reflexivity|]. split; [intros ? []|reflexivity].
  - apply NoDup_cons_iff in Hnd. destruct Hnd as [Hnj Hnd]. pose proof (dx_b _ _ _ _ _ _ _ _ Hd) as Hb.
    assert (Hj : buf_contract fb j = Some idx) by (apply Hl; left; auto).
    assert (Hnm : forall oh, ~ In (oh, j) (ds_objects d)) by (intros oh; apply Hmd; left; auto).
    assert (Htm : touched fb d ((j :: l) ++ P)) by (eapply touched_mono; eauto; apply incl_appr, incl_refl).
    assert (Hbad : (forall o d1, validate_obj (ds_b d) c j = Ok o -> deserialize_obj d c j o <> (Ok tt, d1)) ->
              unshared fb -> (forall j0, In j0 (j :: l) -> ~ In j0 P) -> ~ well_formed fb cs c j).
    { intros H U HP Hw. assert (HPj : ~ In j P) by (apply HP; left; auto). destruct (one_object_fate_any _ _ _ _ _ _ _ _ _ _ _ _ U Hd Hc Hf Hj Ht HPj Hw) as [o [d1 [E1 E2]]]. exact (H _ _ E1 E2). }
    destruct (validate_obj (ds_b d) c j) as [o|e|] eqn:Ev.
    2,3: (injection E as <- <-; exists [], (j :: l), M, s, fs, fc, []; rewrite app_nil_r; split; [exact Hd|]; split; [exact Htm|];
          split; [reflexivity|]; split; [reflexivity|]; split; [reflexivity|]; split; [intros ? []|];
          split; [discriminate|]; apply Hbad; intros o d1 E'; discriminate E').
    destruct (deserialize_obj d c j o) as [r1 d1] eqn:Ed.
    destruct (validate_obj_ok _ _ _ _ _ _ _ _ _ _ Hb Hc Ev) as [Hbo _].
    pose proof (deserialize_obj_touched fb d c j o P (db_fb _ _ _ _ _ _ _ Hb) Hbo Ht _ _ Ed) as Ht1.
    assert (Ht2 : touched fb d1 ((j :: l) ++ P)).
    { eapply touched_mono; eauto. intros x Hx. cbn. rewrite in_app_iff. cbn in Hx. tauto. }
    destruct (deserialize_obj_any _ _ _ _ _ _ _ _ _ _ _ _ _ Hd Hc Ev Ed) as [_ [M1 [s1 [fs1 [fc1 [Hd1 _]]]]]].
    pose proof (deserialize_obj_objects _ _ _ _ _ _ Ed) as H.
    destruct r1 as [[]|e|].
    + destruct H as [oh Ho].
      destruct (deserialize_obj_ok_inv_any _ _ _ _ _ _ _ _ _ _ _ _ Hd Hc Ev Ed) as [Hw _].
      destruct (IH d1 M1 s1 fs1 fc1 r d' (j :: P)) as [l1 [l2 [M' [s' [fs' [fc' [new [H1 [H2 [H3 [H4 [H5 [H6 H7]]]]]]]]]]]]]; auto.
      { intros j' Hj'. apply Hl. right; auto. }
      { intros j' oh' Hj' Hin. rewrite Ho in Hin. apply in_app_or in Hin. destruct Hin as [Hin|[Hin|[]]].
        - apply (Hmd j' oh'); [right; auto|exact Hin].
        - injection Hin as _ <-. auto. }
      exists (j :: l1), l2, M', s', fs', fc', ((oh, j) :: new). split; [exact H1|]. split.
      { eapply touched_mono; eauto. intros x Hx. apply in_app_or in Hx. cbn. rewrite in_app_iff. cbn in Hx. tauto. }
      split; [cbn; f_equal; exact H3|]. split; [rewrite H4, Ho, <- app_assoc; reflexivity|].
      split; [cbn; f_equal; exact H5|]. split; [intros j' [<-|Hj']; auto|].
      destruct l2 as [|j2 l2]; [exact H7|]. destruct H7 as [H7 H8]. split; [exact H7|]. intros U HP. apply H8; [exact U|].
      intros j' Hj' [<-|Hin]; [auto|]. apply (HP j'); [right; auto|auto].
    + injection E as <- <-. rename H into Ho.
      exists [], (j :: l), M1, s1, fs1, fc1, []. rewrite app_nil_r. split; [exact Hd1|]. split; [exact Ht2|].
      split; [reflexivity|]. split; [exact Ho|]. split; [reflexivity|]. split; [intros ? []|]. split; [discriminate|].
      apply Hbad. intros o' d2 E' E2. injection E' as <-. congruence.
    + injection E as <- <-. destruct (deserialize_obj_panicked_any _ _ _ _ _ _ _ _ _ _ _ _ Hd Hc Ev Hnm Ed) as [Hd2 Ho].
      exists [], (j :: l), M, s, fs, fc, []. rewrite app_nil_r. split; [exact Hd2|]. split; [exact Ht2|].
      split; [reflexivity|]. split; [exact Ho|]. split; [reflexivity|]. split; [intros ? []|]. split; [discriminate|].
      apply Hbad. intros o' d2 E' E2. injection E' as <-. congruence.
Qed.

(** Buffer object [j] has been made. *)
Definition has (d : deser) (j : nat) : Prop := exists o, In (o, j) (ds_objects d).
Lemma has_made fb k cs d M s fs fc j : dinvx fb k cs d M s fs fc -> (has d j <-> exists o, In (o, j) M).
Proof.
  intros H. split; [intros [o Ho]; exists o; apply (dx_sub _ _ _ _ _ _ _ _ H); exact Ho|].
  intros [o Ho]. exact (dx_cov _ _ _ _ _ _ _ _ H _ _ Ho).
Qed.
Lemma each_again_any fb k cs c j l d M s fs fc r d' P :
  dinvx fb k cs d M s fs fc -> In c cs -> touched fb d P -> incl (j :: l) P -> has d j ->
  deserialize_each d c (j :: l) = (r, d') ->
  exists M' s' fs' fc', dinvx fb k cs d' M' s' fs' fc' /\ touched fb d' P /\ forall j', has d' j' <-> has d j'.
Proof.
  intros Hd Hc Ht HP Hj E. cbn [deserialize_each] in E. pose proof (dx_b _ _ _ _ _ _ _ _ Hd) as Hb.
  destruct (validate_obj (ds_b d) c j) as [o|e|] eqn:Ev.
  2,3: (injection E as <- <-; exists M, s, fs, fc; split; [exact Hd|]; split; [exact Ht|tauto]).
  destruct (deserialize_obj d c j o) as [r1 d1] eqn:Ed.
  destruct (validate_obj_ok _ _ _ _ _ _ _ _ _ _ Hb Hc Ev) as [Hbo _].
  pose proof (deserialize_obj_touched fb d c j o P (db_fb _ _ _ _ _ _ _ Hb) Hbo Ht _ _ Ed) as Ht1.
  destruct (deserialize_obj_any _ _ _ _ _ _ _ _ _ _ _ _ _ Hd Hc Ev Ed) as [_ [M1 [s1 [fs1 [fc1 [Hd1 HM]]]]]].
  assert (Hres : exists M' s' fs' fc', dinvx fb k cs d1 M' s' fs' fc' /\ touched fb d1 P /\ forall j', has d1 j' <-> has d j').
  { exists M1, s1, fs1, fc1. split; [exact Hd1|]. split.
    - eapply touched_mono; eauto. intros x [<-|Hx]; auto. apply HP. left; auto.
    - intros j'. rewrite (has_made _ _ _ _ _ _ _ _ j' Hd1), (has_made _ _ _ _ _ _ _ _ j' Hd).
      destruct HM as [->|[oh ->]]; [tauto|]. split; [|intros [o' Ho']; exists o'; apply in_or_app; auto].
      intros [o' Ho']. apply in_app_or in Ho'. destruct Ho' as [Ho'|[Ho'|[]]]; [eauto|]. injection Ho' as _ <-.
      apply (has_made _ _ _ _ _ _ _ _ j Hd). exact Hj. }
  destruct r1 as [[]|e|]; [|injection E as <- <-; exact Hres|injection E as <- <-; exact Hres].
  exfalso. destruct Hj as [oh Hj]. eapply deserialize_obj_ok_new; eauto.
Qed.

Record lstatex (fb : fb_baseline) (k : baseline_kind) (cs asked : list contract_inst) (d : deser) : Prop := {
  lx_inv : exists M s fs fc, dinvx fb k cs d M s fs fc;
  lx_incl : incl asked cs;
  lx_touched : exists P, touched fb d P /\ forall j, In j P <-> exists c, In c asked /\ of_contract fb c j;
  lx_good : forall j c, has d j -> In c asked -> of_contract fb c j ->
    forall j', of_contract fb c j' -> j' <= j -> well_formed fb cs c j' /\ has d j';
  lx_all : unshared fb -> forall c j, In c asked -> of_contract fb c j ->
    (forall j', of_contract fb c j' -> j' <= j -> well_formed fb cs c j') -> has d j
}.

Lemma loads_any_step fb k cs asked d c r d' :
  lstatex fb k cs asked d -> In c cs -> deserialize_objects d c = (r, d') ->
  lstatex fb k cs (asked ++ [c]) d' /\
  (~ In c asked -> (r = Ok tt -> forall j, of_contract fb c j -> well_formed fb cs c j) /\
     (unshared fb -> (forall j, of_contract fb c j -> well_formed fb cs c j) -> r = Ok tt)).
Proof.
  intros [[M [s [fs [fc Hd]]]] Hi [P [Ht HP]] Hg Ha] Hc E. pose proof (dx_b _ _ _ _ _ _ _ _ Hd) as Hb.
  destruct (db_found _ _ _ _ _ _ _ Hb _ Hc) as [idx Hf].
  assert (E0 : deserialize_objects d c = deserialize_each d c (objects_of fb idx)).
  { unfold deserialize_objects, objects_of. rewrite (find_contract_right _ _ _ _ _ _ _ _ _ Hb Hc Hf), (db_fb _ _ _ _ _ _ _ Hb).
    destruct (fb_objects fb); reflexivity. }
  rewrite E0 in E. clear E0.
  assert (Hof : forall j, of_contract fb c j <-> In j (objects_of fb idx)).
  { intros j. rewrite objects_of_in. split; [intros [i [H1 H2]]; congruence|]. intros H. exists idx. auto. }
  assert (Hsame : forall c' j, In c' cs -> of_contract fb c' j -> of_contract fb c j -> c' = c).
  { intros c' j Hc' [i [H1 H2]] [i' [H3 H4]]. assert (i' = i) by congruence. subst i'. eapply same_contract; [exact Hb| | | |]; eauto. }
  assert (Hi' : incl (asked ++ [c]) cs).
  { intros x Hx. apply in_app_or in Hx. destruct Hx as [Hx|[<-|[]]]; auto. }
  assert (HP' : forall Q, (forall j, In j Q <-> In j (objects_of fb idx) \/ In j P) ->
            forall j, In j Q <-> exists c0, In c0 (asked ++ [c]) /\ of_contract fb c0 j).
  { intros Q HQ j. rewrite HQ, HP, <- Hof. split.
    - intros [H|[c0 [H1 H2]]]; [exists c|exists c0]; (split; [apply in_or_app|]); auto. right; left; auto.
    - intros [c0 [H1 H2]]. apply in_app_or in H1. destruct H1 as [H1|[<-|[]]]; [right; eauto|left; exact H2]. }
  destruct (in_dec Nat.eq_dec (hd 0 (objects_of fb idx)) (map snd (ds_objects d))) as [Hmade|Hmade].
  - (* the first object was made before *)
    destruct (objects_of fb idx) as [|j0 t] eqn:El.
    { injection E as <- <-. split.
      - constructor; [exists M, s, fs, fc; exact Hd|exact Hi'|exists P; split; [exact Ht|]; apply HP'; cbn; tauto| |].
        + intros j c0 Ho Hc0 Hj. apply in_app_or in Hc0. destruct Hc0 as [Hc0|[<-|[]]]; [eapply Hg; eauto|apply Hof in Hj; destruct Hj].
        + intros U c0 j Hc0 Hj. apply in_app_or in Hc0. destruct Hc0 as [Hc0|[<-|[]]]; [eapply Ha; eauto|apply Hof in Hj; destruct Hj].
      - intros _. split; [intros _ j Hj; apply Hof in Hj; destruct Hj|reflexivity]. }
    cbn [hd] in Hmade. apply in_map_iff in Hmade. destruct Hmade as [[o0 j'] [Ej Ho0]]. cbn [snd] in Ej. subst j'.
    assert (Hj0 : of_contract fb c j0) by (apply Hof; left; auto).
    assert (Hin : In c asked).
    { assert (H : In j0 P) by (eapply (proj2 Ht); eauto). apply HP in H. destruct H as [c0 [H1 H2]].
      rewrite <- (Hsame _ _ (Hi _ H1) H2 Hj0). exact H1. }
    assert (Hsub : incl (j0 :: t) P) by (intros j Hj; apply HP; exists c; split; [exact Hin|apply Hof; exact Hj]).
    destruct (each_again_any fb k cs c j0 t d M s fs fc r d' P Hd Hc Ht Hsub (ex_intro _ o0 Ho0) E) as [M' [s' [fs' [fc' [H1 [H2 H3]]]]]].
    split; [|intros H; destruct (H Hin)].
    assert (Hcut : forall c0, In c0 (asked ++ [c]) -> In c0 asked).
    { intros c0 Hx. apply in_app_or in Hx. destruct Hx as [Hx|[<-|[]]]; auto. }
    constructor; [exists M', s', fs', fc'; exact H1|exact Hi'|exists P; split; [exact H2|]; apply HP'; intros j; split; [auto|intros [Hj|Hj]; auto]| |].
    + intros j c0 Ho Hc0 Hj j' Hj' Hle. rewrite H3 in Ho |- *. apply (Hg j c0 Ho (Hcut _ Hc0) Hj j' Hj' Hle).
    + intros U c0 j Hc0. rewrite H3. apply (Ha U c0 j (Hcut _ Hc0)).
  - (* none was made before *)
    assert (Hnone : forall j oh, In j (objects_of fb idx) -> ~ In (oh, j) (ds_objects d)).
    { intros j oh Hj Ho. apply Hmade. destruct (objects_of fb idx) as [|j0 t] eqn:El; [destruct Hj|]. cbn [hd].
      assert (Hjc : of_contract fb c j) by (apply Hof; exact Hj).
      assert (Hin : In c asked).
      { assert (H : In j P) by (eapply (proj2 Ht); eauto). apply HP in H. destruct H as [c0 [H1 H2]].
        rewrite <- (Hsame _ _ (Hi _ H1) H2 Hjc). exact H1. }
      destruct (Hg _ _ (ex_intro _ oh Ho) Hin Hjc j0) as [_ [o' Ho']].
      - apply Hof. left; auto.
      - destruct Hj as [<-|Hj]; [lia|]. pose proof (objects_of_least _ _ _ _ _ El Hj). lia.
      - apply in_map_iff. exists (o', j0). auto. }
    destruct (each_stops_any fb k cs c idx (objects_of fb idx) d M s fs fc r d' P Hd Hc Hf) as [l1 [l2 [M' [s' [fs' [fc' [new [H1 [H2 [H3 [H4 [H5 [H6 H7]]]]]]]]]]]]]; auto.
    { intros j Hj. apply objects_of_in. exact Hj. }
    { apply objects_of_nodup. }
    assert (Hhas : forall j, has d' j <-> has d j \/ In j l1).
    { intros j. unfold has. rewrite H4, <- H5, in_map_iff. split.
      - intros [o Ho]. apply in_app_or in Ho. destruct Ho as [Ho|Ho]; [left; eauto|right; exists (o, j); auto].
      - intros [[o Ho]|[[o j'] [Ej Ho]]]; [exists o; apply in_or_app; auto|]. cbn in Ej. subst j'. exists o. apply in_or_app. auto. }
    assert (Hdown : forall j j', In j l1 -> of_contract fb c j' -> j' <= j -> In j' l1).
    { intros j j' Hj Hj' Hle. destruct l2 as [|j2 l2]. { rewrite app_nil_r in H3. rewrite <- H3. apply Hof. exact Hj'. }
      destruct (objects_of_split _ _ _ _ _ H3) as [Hl1 _]. apply Hl1 in Hj. apply Hl1. split; [|lia].
      apply objects_of_in. apply Hof. exact Hj'. }
    split.
    + constructor; [exists M', s', fs', fc'; exact H1|exact Hi'|exists (objects_of fb idx ++ P); split; [exact H2|]; apply HP'; intros j; apply in_app_iff| |].
      * intros j c0 Ho Hc0 Hj j' Hj' Hle. rewrite Hhas in Ho |- *. destruct Ho as [Ho|Ho].
        -- assert (Hc0' : In c0 asked).
           { assert (H : In j P) by (destruct Ho as [o Ho]; eapply (proj2 Ht); eauto). apply HP in H. destruct H as [c1 [K1 K2]].
             destruct Hj as [i [L1 L2]]. destruct K2 as [i' [M1 M2]]. assert (i' = i) by congruence. subst i'.
             rewrite (same_contract _ _ _ _ _ _ _ c1 c0 i Hb (Hi _ K1) (Hi' _ Hc0) M1 L1). exact K1. }
           destruct (Hg _ _ Ho Hc0' Hj j' Hj' Hle) as [K1 K2]. split; auto.
        -- assert (Hjc : of_contract fb c j) by (apply Hof; rewrite H3; apply in_or_app; auto).
           assert (c0 = c) by (apply (Hsame c0 j); auto). subst c0.
           pose proof (Hdown _ _ Ho Hj' Hle) as Hj'l. split; auto.
      * intros U c0 j Hc0 Hj Hall. rewrite Hhas.
        destruct (in_dec cinst_dec c0 asked) as [Hin|Hnin]; [left; apply (Ha U c0 j Hin Hj Hall)|].
        apply in_app_or in Hc0. destruct Hc0 as [Hc0|[<-|[]]]; [destruct (Hnin Hc0)|]. right.
        destruct l2 as [|j2 l2]. { rewrite app_nil_r in H3. rewrite <- H3. apply Hof. exact Hj. }
        destruct (objects_of_split _ _ _ _ _ H3) as [Hl1 Hj2]. apply Hl1. split; [apply objects_of_in, Hof; exact Hj|].
        destruct (Nat.lt_ge_cases j j2) as [|Hge]; [auto|]. exfalso. apply (proj2 H7 U).
        -- intros x Hx Hx'. apply HP in Hx'. destruct Hx' as [c1 [K1 K2]]. apply Hof in Hx. apply Hnin.
           rewrite <- (Hsame c1 x); auto.
        -- apply Hall; [|exact Hge]. exists idx. auto.
    + intros Hnin. split.
      * intros -> j Hj. destruct l2 as [|j2 l2]; [|destruct (proj1 H7 eq_refl)]. rewrite app_nil_r in H3. apply H6.
        rewrite <- H3. apply Hof. exact Hj.
      * intros U Hall. destruct l2 as [|j2 l2]; [exact H7|]. exfalso. destruct H7 as [_ H7]. apply H7; auto.
        -- intros x Hx Hx'. apply HP in Hx'. destruct Hx' as [c1 [K1 K2]]. apply Hof in Hx. apply Hnin.
           rewrite <- (Hsame c1 x); auto.
        -- apply Hall. apply Hof. rewrite H3. apply in_or_app. right; left; auto.
Qed.

Lemma loads_any_state fb k cs asked d : loads_any fb k cs asked d -> lstatex fb k cs asked d.
Proof.
  induction 1 as [d Hb|asked d c r d' H IH Hc E].
  - destruct (builds_inv _ _ _ _ Hb) as [s [fs [fc [Hd Ho]]]].
    constructor; [|intros ? []| | |].
    + eexists _, s, fs, fc. apply dinv_dinvx, dinv_new; auto.
    + exists []. split; [split; cbn; [intros n []|intros o j []]|]. intros j. split; [intros []|intros [c [[] _]]].
    + intros j c [o []].
    + intros U c j [].
  - exact (proj1 (loads_any_step _ _ _ _ _ _ _ _ IH Hc E)).
Qed.
Lemma has_got fb k cs asked d j : cs_ok cs -> unshared fb -> lstatex fb k cs asked d -> (has d j <-> got fb cs asked j).
Proof.
  intros HL U [_ Hi [P [Ht HP]] Hg Ha]. split.
  - intros Ho. assert (Hj : In j P) by (destruct Ho as [o Ho]; eapply (proj2 Ht); eauto). apply HP in Hj. destruct Hj as [c [H1 H2]].
    exists c. split; [exact H1|]. split; [apply (of_contract_one fb cs); auto|]. intros j' Hj' Hle. apply readable_wf; [exact HL|].
    apply (of_contract_one fb cs) in Hj'; auto. apply (Hg j c Ho H1 H2 j' Hj' Hle).
  - intros [c [H1 [H2 H3]]]. apply (of_contract_one fb cs) in H2; auto. apply (Ha U c j H1 H2). intros j' Hj' Hle.
    apply readable_wf; [exact HL|]. apply H3; [apply (of_contract_one fb cs); auto|exact Hle].
Qed.

Lemma conforms_of_dinvx fb k cs d M s fs fc b' : cs_ok cs -> dinvx fb k cs d M s fs fc -> finishes d (Ok b') ->
  conforms_copies fb k cs b' (fun j o => In (o, j) M) (made_of d).
Proof.
  intros HL Hd Hfin. unfold made_of.
  pose proof (dx_b _ _ _ _ _ _ _ _ Hd) as Hb.
  pose proof (finish_any _ _ _ _ _ _ _ _ _ Hd Hfin) as [[s' [fs' [fc' [Hr [Hk [Hcon [Hlive [Hmem Hmade]]]]]]]] Hrefs].
  assert (HLc : forall c, In c cs -> layout_ok (ci_ty c)) by (apply Forall_forall; exact HL).
  assert (Hobj : forall o, obj_at b' o <> None <-> exists j, In (o, j) M).
  { intros o. rewrite <- Hlive. unfold obj_at. destruct (live_obj s' o) as [ro|] eqn:El.
    - destruct (rr_live _ _ _ _ Hr _ _ El) as [H _]. rewrite H. split; discriminate.
    - rewrite (rr_dead _ _ _ _ Hr _ El). tauto. }
  - constructor.
    + exact Hk.
    + intros j j' o H1 H2. exact (dx_fun _ _ _ _ _ _ _ _ Hd _ _ _ H1 H2).
    + intros j o o' H1 H2. exact (dx_dup _ _ _ _ _ _ _ _ Hd _ _ _ H1 H2).
    + intros j [o Ho]. exact (dx_cov _ _ _ _ _ _ _ _ Hd _ _ Ho).
    + intros j o o' H1 H2. apply (dx_bij _ _ _ _ _ _ _ _ Hd _ _ _ _ H1 H2). reflexivity.
    + intros j o H1. exact (dx_sub _ _ _ _ _ _ _ _ Hd _ H1).
    + intros h. unfold con_at. pose proof (rr_con _ _ _ _ Hr h) as H. destruct (rs_con s' h) as [C|] eqn:Ec.
      * destruct H as [cd [H _]]. rewrite H. split; [|discriminate]. intros _. exists (mkCinst C h). split; auto. apply Hcon; auto.
      * rewrite H. split; [tauto|]. intros [[C h'] [Hc Eh]]. cbn in Eh. subst h'. apply Hcon in Hc. congruence.
    + intros c Hc. assert (Hc' : rs_con s' (ci_handle c) = Some (ci_ty c)) by (apply Hcon; destruct c; auto).
      pose proof (rr_con _ _ _ _ Hr (ci_handle c)) as H. rewrite Hc' in H. destruct H as [cd [Hg [Hid Hm]]].
      exists cd. split; auto. split; auto. intros o. split.
      * intros Hin. destruct (Hmem c o Hc) as [j Hj]; [congruence|].
        assert (Hno : obj_at b' o <> None) by (apply Hobj; eauto).
        destruct (bi_con_obj _ (rr_inv _ _ _ _ Hr) _ _ _ Hg Hin) as [Hdd|H]; auto.
        exfalso. apply Hno. exact (proj1 Hdd).
      * intros [ob [Ho Eo]]. destruct (bi_obj_con _ (rr_inv _ _ _ _ Hr) _ _ Ho) as [cd' [Hg' Hin]].
        rewrite Eo, Hg in Hg'. injection Hg' as <-. auto.
    + exact Hobj.
    + intros j o Ho. destruct (Hmade _ _ Ho) as [c [ro [idx [A1 [A2 [A3 [A4 [A5 [A6 [A7 [A8 [A9 A10]]]]]]]]]]]].
      assert (Hl : live_obj s' o = Some ro) by (unfold live_obj; rewrite A2, A3; auto).
      destruct (rr_live _ _ _ _ Hr _ _ Hl) as [Hg [C [HC [Hv Hch]]]].
      assert (Hc' : rs_con s' (ci_handle c) = Some (ci_ty c)) by (apply Hcon; destruct c; auto).
      rewrite A4, Hc' in HC. injection HC as <-.
      exists c, idx, (mkObject (fs' o) (fc' o) (ro_contract ro) (ro_warp ro)). cbn.
      split; auto. split; [apply find_contract_iff; auto|]. split; auto. split; auto. split; auto. split; auto.
      split.
      { assert (HH : length (fc' o) = length (ro_chans ro)).
        { apply (ce_len _ _ _ _ (rr_ch _ _ _ _ Hr) o). rewrite A2. reflexivity. }
        rewrite A6 in HH. destruct (fc' o); [auto|discriminate]. }
      split; [rewrite A9, <- Hv, map_length; auto|].
      intros i t Ht. rewrite <- Hv, nth_error_map in Ht. destruct (nth_error (ro_vals ro) i) as [v|] eqn:Ev; [|discriminate].
      cbn in Ht. injection Ht as <-. destruct (A10 _ _ Ev) as [n [fv [B1 [B2 B3]]]].
      exists fv, v. split; [unfold buf_field; rewrite B1; auto|].
      split; [eapply stands_tag; eauto|]. split.
      { destruct c as [C h]. rewrite (rec_field _ _ _ _ C h i o ro Hr Hc' Hl A4). auto. }
      split; auto. eapply stands_for_impl; [| |exact B3]; auto.
      intros n' h Hin. apply (db_reg _ _ _ _ _ _ _ Hb) in Hin. destruct Hin as [c' [G1 [G2 G3]]].
      exists c'. split; auto. split; auto. apply find_contract_iff; auto.
Qed.

(** Whatever was called, with errors ignored and panics caught: the finished baseline
    holds, of each contract that was asked for, the objects before the first one that
    cannot be read, complete, all references leading where they should; a buffer object
    that holds references has one copy only. *)
Theorem C64_whatever_was_caught :
  forall fb k cs asked d b',
    cs_ok cs -> unshared fb -> loads_any fb k cs asked d -> finishes d (Ok b') ->
    exists from target, conforms_copies fb k cs b' from target /\ forall j, (exists o, from j o) <-> got fb cs asked j.
Proof.
  intros fb k cs asked d b' HL U H Hf. pose proof (loads_any_state _ _ _ _ _ H) as HS.
  destruct (lx_inv _ _ _ _ _ HS) as [M [s [fs [fc Hd]]]].
  exists (fun j o => In (o, j) M), (made_of d). split; [exact (conforms_of_dinvx _ _ _ _ _ _ _ _ _ HL Hd Hf)|].
  intros j. rewrite <- (has_got _ _ _ _ _ j HL U HS). symmetry. apply (has_made _ _ _ _ _ _ _ _ j Hd).
Qed.
Print Assumptions C64_whatever_was_caught.

(** The same in any buffer, also one whose fields share states. *)
Theorem C64_references_lead_somewhere_whatever_was_caught :
  forall fb k cs asked d b',
    cs_ok cs -> loads_any fb k cs asked d -> finishes d (Ok b') ->
    exists from target, conforms_copies fb k cs b' from target /\
      forall j o, from j o -> exists c, In c asked /\ belongs fb [c] j /\
        forall j', belongs fb [c] j' -> j' <= j -> readable fb cs c j' /\ exists o', from j' o'.
Proof.
  intros fb k cs asked d b' HL H Hf. pose proof (loads_any_state _ _ _ _ _ H) as HS.
  destruct (lx_inv _ _ _ _ _ HS) as [M [s [fs [fc Hd]]]].
  exists (fun j o => In (o, j) M), (made_of d). split; [exact (conforms_of_dinvx _ _ _ _ _ _ _ _ _ HL Hd Hf)|].
  intros j o Ho. destruct HS as [_ Hi [P [Ht HP]] Hg _].
  assert (Hh : has d j) by (apply (has_made _ _ _ _ _ _ _ _ j Hd); eauto).
  assert (Hj : In j P) by (destruct Hh as [o' Ho']; eapply (proj2 Ht); eauto). apply HP in Hj. destruct Hj as [c [H1 H2]].
  exists c. split; [exact H1|]. split; [apply (of_contract_one fb cs); auto|]. intros j' Hj' Hle.
  apply (of_contract_one fb cs) in Hj'; auto. destruct (Hg j c Hh H1 H2 j' Hj' Hle) as [K1 K2].
  split; [apply readable_wf; auto|]. apply (has_made _ _ _ _ _ _ _ _ j' Hd). exact K2.
Qed.
Print Assumptions C64_references_lead_somewhere_whatever_was_caught.

(** ... and [finish] never panics, and succeeds exactly if what was loaded refers to
    nothing else. *)
Theorem C64_finish_whatever_was_caught :
  forall fb k cs asked d r,
    cs_ok cs -> unshared fb -> loads_any fb k cs asked d -> finishes d r ->
    r <> Panic /\
    ((exists b', r = Ok b') <->
     (forall j i oi, got fb cs asked j -> buf_field fb j i = Some (FObjectHandle oi) -> got fb cs asked (N.to_nat oi))).
Proof.
  intros fb k cs asked d r HL U H Hf. pose proof (loads_any_state _ _ _ _ _ H) as HS.
  destruct (lx_inv _ _ _ _ _ HS) as [M [s [fs [fc Hd]]]].
  pose proof (fun j => has_got _ _ _ _ _ j HL U HS) as Hgot.
  pose proof (fun j => has_made _ _ _ _ _ _ _ _ j Hd) as Hhm.
  pose proof (finish_any _ _ _ _ _ _ _ _ _ Hd Hf) as HF.
  destruct r as [b'|e|]; [| |destruct HF]; (split; [discriminate|]).
  - split; [intros _|eauto]. intros j i oi Hj Hfld. apply Hgot, Hhm in Hj. destruct Hj as [o Ho]. apply Hgot.
    destruct HF as [_ HF]. exact (HF _ _ _ _ Ho Hfld).
  - destruct HF as [_ [o [j [i [oi [Ho [Hfld Hno]]]]]]]. split; [intros [b' E]; discriminate E|].
    intros Hall. exfalso. assert (Hj : got fb cs asked j) by (apply Hgot, Hhm; eauto).
    apply Hall with (i := i) (oi := oi) in Hj; [|exact Hfld]. apply Hgot in Hj. destruct Hj as [o' Ho']. exact (Hno _ Ho').
Qed.
Print Assumptions C64_finish_whatever_was_caught.

(** A call for a contract that was not asked for yet succeeds exactly if every object of
    it can be read. *)
Theorem C64_answer_whatever_was_caught :
  forall fb k cs asked d c r d',
    cs_ok cs -> unshared fb -> loads_any fb k cs asked d -> In c cs -> ~ In c asked ->
    deserialize_objects d c = (r, d') ->
    (r = Ok tt <-> forall j, belongs fb [c] j -> readable fb cs c j).
Proof.
  intros fb k cs asked d c r d' HL U H Hc Hn E. pose proof (loads_any_state _ _ _ _ _ H) as HS.
  destruct (loads_any_step _ _ _ _ _ _ _ _ HS Hc E) as [_ K]. destruct (K Hn) as [K1 K2]. split.
  - intros Hr j Hj. apply (of_contract_one fb cs) in Hj; auto. apply readable_wf; auto.
  - intros Hall. apply K2; [exact U|]. intros j Hj. apply readable_wf; [exact HL|]. apply Hall. apply (of_contract_one fb cs); auto.
Qed.
Print Assumptions C64_answer_whatever_was_caught.

Lemma from_reach k b : from k b -> binv b.
Proof. intros [ops H]. apply reach_binv. exists k, ops. exact H. Qed.
Lemma from_obj k d c i o r d' : from k (d_base (ds_b d)) -> deserialize_obj d c i o = (r, d') -> from k (d_base (ds_b d')).
Proof.
  intros F H. unfold deserialize_obj in H. destruct (match fo_states o with Some _ => _ | None => _ end); [injection H as <- <-; auto|].
  destruct (build_props _ _ _) as [[[ps ns]|?|] refs]; [|injection H as <- <-; exact F|injection H as <- <-; exact F].
  destruct (object_create (d_base (ds_b d)) c ps []) as [ro b1] eqn:E.
  assert (F1 : from k b1).
  { destruct (create_spec (d_base (ds_b d)) c ps [] (from_reach _ _ F)) as [[_ [e E']]|[_ [oh [ob [b' [E' _]]]]]];
      rewrite E' in E; injection E as <- <-.
    - exact F.
    - apply (from_step k (d_base (ds_b d)) (BCreate c ps []) (Ok (RHandle oh))); [exact F|constructor| |discriminate].
      cbn [bstep]. rewrite E'. reflexivity. }
  destruct ro as [oh|e|]; [|injection H as <- <-; exact F1|injection H as <- <-; exact F1].
  destruct (track_nulls b1 oh ns (ds_states d)) as [[?|?|] st]; [|injection H as <- <-; exact F1|injection H as <- <-; exact F1].
  destruct (bm_fresh _ _ _ _ _); injection H as <- <-; exact F1.
Qed.
Lemma from_any_each k c l : forall d r d', from k (d_base (ds_b d)) -> deserialize_each d c l = (r, d') -> from k (d_base (ds_b d')).
Proof.
  induction l as [|i l IH]; intros d r d' F H; cbn [deserialize_each] in H; [injection H as <- <-; exact F|].
  destruct (validate_obj (ds_b d) c i) as [o|?|]; [|injection H as <- <-; exact F|injection H as <- <-; exact F].
  destruct (deserialize_obj d c i o) as [r1 d1] eqn:E. pose proof (from_obj _ _ _ _ _ _ _ F E) as F1.
  destruct r1 as [u|e|]; [apply (IH d1 r d'); auto|injection H as <- <-; exact F1|injection H as <- <-; exact F1].
Qed.
Lemma from_any fb k cs asked d : loads_any fb k cs asked d -> from k (d_base (ds_b d)).
Proof.
  induction 1 as [d Hb|asked d c r d' H IH Hc E]; [cbn; eapply from_builds; eauto|].
  unfold deserialize_objects in E. destruct (bm_right _ _ _); [|injection E as <- <-; exact IH].
  destruct (fb_objects _); [|injection E as <- <-; exact IH]. eapply from_any_each; eauto.
Qed.

(** After any calls, with errors ignored and panics caught, what [finish] returns is a
    baseline that ordinary calls could have built. *)
Theorem C64_ordinary_whatever_failed :
  forall fb k cs asked d b', loads_any fb k cs asked d -> finishes d (Ok b') ->
    exists ops, bsteps (baseline_new k) ops b'.
Proof.
  intros fb k cs asked d b H (ord & ordn & P & Pn & E). pose proof (from_any _ _ _ _ _ H) as F.
  unfold deser_finish in E. destruct (restore_refs (ds_refs d) (ds_objects d) (d_base (ds_b d)) ord) as [[u|?|] b1] eqn:R; try discriminate.
  destruct u. destruct (from_restore k _ _ _ _ _ F R) as [F1 C1].
  destruct (unregister_contract b1 NullContract (ci_handle (d_null (ds_b d))) ordn) as [[u|?|] b2] eqn:Eu; try discriminate.
  injection E as <-.
  apply (from_step k b1 (BUnregister NullContract (ci_handle (d_null (ds_b d))) ordn) (Ok RUnit)); [exact F1| | |discriminate].
  - intros cd Ec. apply Pn. unfold con_at. rewrite <- C1. exact Ec.
  - cbn [bstep]. rewrite Eu. destruct u. reflexivity.
Qed.
Print Assumptions C64_ordinary_whatever_failed.

(** Every buffer the serializer writes is unshared, also after its values have been
    replaced by arbitrary others: the theorems above apply. *)
Theorem C64_written_buffers_are_unshared :
  forall k ops rs b l,
    crun (baseline_new k) ops = (rs, b) -> existsb is_panic rs = false -> all_disciplined rs_empty ops rs ->
    selection b (rfinal rs_empty ops rs) l -> intact b l -> plain l -> fits_format l -> closed b l ->
    exists sr, serialize_all b ser_new l = (Ok tt, sr) /\
      forall ordc ordo, Permutation ordc (hm_cstates sr) -> Permutation ordo (hm_ostates sr) ->
        exists fb, ser_finish b sr ordc ordo = Ok (Some fb) /\ unshared fb /\
          forall vs, unshared (mkFb (fb_contracts fb) (Some vs) (fb_objects fb)).
Proof.
  intros k ops rs b l Hc Hp Hd Hsel Hint Hpl Hfit Hclo.
  destruct (C33_buffer_holds_exactly_the_selection k ops rs b l Hc Hp Hd Hsel Hint Hpl Hfit) as [sr [Esr Hfin]].
  exists sr. split; [exact Esr|]. intros ordc ordo Hpc Hpo. destruct (proj1 (Hfin ordc ordo Hpc Hpo) Hclo) as [fb [Efb Hen]].
  exists fb. split; [exact Efb|]. split.
  - intros j i j' i' n oi H1 H2 _. eapply (en_unshared _ _ _ Hen); eauto.
  - intros vs j i j' i' n oi H1 H2 _. eapply (en_unshared _ _ _ Hen); eauto.
Qed.
Print Assumptions C64_written_buffers_are_unshared.

(** *** Concrete buffers, and what is false *)

(** A call, whatever it answers. *)
Definition lf_call (d : deser) (c : contract_inst) : outcome unit * deser := deserialize_objects d c.
Lemma lf_loads fb cs asked d c : loads fb KMain cs asked d -> In c cs -> (fst (lf_call d c) = Panic -> ~ In c asked) ->
  loads fb KMain cs (asked ++ [c]) (snd (lf_call d c)).
Proof. unfold lf_call. destruct (deserialize_objects d c) as [r d'] eqn:E. intros H Hc Hp. eapply ld_call; eauto. Qed.
Lemma lf_any fb cs asked d c : loads_any fb KMain cs asked d -> In c cs -> loads_any fb KMain cs (asked ++ [c]) (snd (lf_call d c)).
Proof. unfold lf_call. destruct (deserialize_objects d c) as [r d'] eqn:E. intros H Hc. eapply la_call; eauto. Qed.
(** What [finish] returns, computed. *)
Definition lf_finish (d : deser) : outcome baseline := deser_finish d (ds_states d) [d_null_obj (ds_b d)].
Lemma lf_finishes (Q : baseline -> Prop) d :
  match lf_finish d with Ok b => Q b | _ => False end ->
  (forall cd, con_at (d_base (ds_b d)) (ci_handle (d_null (ds_b d))) = Some cd -> cd_objects cd = [d_null_obj (ds_b d)]) ->
  exists b', finishes d (Ok b') /\ Q b'.
Proof.
  intros H Hn. unfold lf_finish in H. destruct (deser_finish d _ _) as [b|e|] eqn:E; try contradiction.
  exists b. split; [|exact H]. exists (ds_states d), [d_null_obj (ds_b d)]. split; [apply Permutation_refl|].
  split; [|exact E]. intros cd Hcd. rewrite (Hn _ Hcd). apply Permutation_refl.
Qed.

(** Three objects of one contract: the first refers to itself, the second has [bad] in
    place of its text, the third is like the first. *)
Definition lfFb (bad : fbval) : fb_baseline :=
  dsMk (Some [dsFC])
       (Some [mkFbObject (Some 0%N) (Some [0%N; 1%N; 2%N; 3%N]);
              mkFbObject (Some 0%N) (Some [4%N; 5%N; 6%N; 7%N]);
              mkFbObject (Some 0%N) (Some [8%N; 9%N; 10%N; 11%N])])
       (Some [FU8 7; FObjectHandle 0; FFbString (Some "x"); FContractDataHandle 0;
              FU8 8; FObjectHandle 1; bad; FContractDataHandle 0;
              FU8 9; FObjectHandle 2; FFbString (Some "z"); FContractDataHandle 0]).
Definition lf0 (bad : fbval) : deser := deser_new (snd (ds_builder (lfFb bad) [dsC])).
Definition lf1 (bad : fbval) : deser := snd (lf_call (lf0 bad) dsCon).

Lemma lf_unshared bad : (forall oi, bad <> FObjectHandle oi) -> unshared (lfFb bad).
Proof.
  intros Hbad.
  assert (Hx : forall j i n oi, nth_error (buf_indices (lfFb bad) j) i = Some n -> buf_state (lfFb bad) n = Some (FObjectHandle oi) ->
               (n = 1 /\ j = 0 /\ i = 1) \/ (n = 5 /\ j = 1 /\ i = 1) \/ (n = 9 /\ j = 2 /\ i = 1)).
  { intros j0 i n oi Hn Hs. destruct j0 as [|[|[|[|j0]]]]; unfold buf_indices in Hn; cbn in Hn;
      repeat (destruct i as [|i]; cbn in Hn; [injection Hn as <-; cbn in Hs; try discriminate; auto 6|]); try (destruct i; discriminate); try (destruct j0, i; discriminate).
    injection Hs as Hs. destruct (Hbad _ Hs). }
  intros j1 j2 i1 i2 n oi H1 H2 H3.
  destruct (Hx _ _ _ _ H1 H3) as [[A1 [A2 A3]]|[[A1 [A2 A3]]|[A1 [A2 A3]]]], (Hx _ _ _ _ H2 H3) as [[B1 [B2 B3]]|[[B1 [B2 B3]]|[B1 [B2 B3]]]]; subst; auto; discriminate.
Qed.

(** The values of [dsCon]'s first two fields in the slots [os]. *)
Definition lf_seen (b : baseline) (c : contract_inst) (i : nat) (os : list nat) : list (option dynprop) :=
  map (fun n => field_of b c i (mkIndex n 0%N)) os.

(** A call that fails, with an error (the wrong tag) or with a panic (a string state
    without string): the hypotheses of the theorems hold, and the first object is there
    afterwards, the second and the third are not. *)
Example lf_half : forall bad, bad = FU8 1 \/ bad = FFbString None ->
  cs_ok [dsCon] /\ unshared (lfFb bad) /\ loads (lfFb bad) KMain [dsCon] [] (lf0 bad) /\
  loads (lfFb bad) KMain [dsCon] [dsCon] (lf1 bad) /\ fst (lf_call (lf0 bad) dsCon) <> Ok tt /\
  exists b', finishes (lf1 bad) (Ok b') /\
    lf_seen b' dsCon 0 [0; 1; 2; 3] = [None; Some (PPrim (VU8 7)); None; None] /\
    lf_seen b' dsCon 1 [1] = [Some (PPrim (VObjectHandle (mkIndex 1 0%N)))].
Proof.
  intros bad Hbad.
  assert (H0 : loads (lfFb bad) KMain [dsCon] [] (lf0 bad)).
  { constructor. apply ds_builds. destruct Hbad as [->| ->]; vm_compute; reflexivity. }
  split; [repeat constructor|]. split; [apply lf_unshared; destruct Hbad as [->| ->]; discriminate|]. split; [exact H0|].
  split; [apply (lf_loads _ _ [] _ _ H0); [left; reflexivity|intros _ []]|].
  split; [destruct Hbad as [->| ->]; vm_compute; discriminate|].
  apply lf_finishes.
  - destruct Hbad as [->| ->]; vm_compute; split; reflexivity.
  - intros cd Hcd. destruct Hbad as [->| ->]; vm_compute in Hcd; injection Hcd as <-; reflexivity.
Qed.

(** The only result of [finish], when no references are to be restored. *)
Lemma lf_only (Q : baseline -> Prop) d :
  match lf_finish d with Ok b => Q b | _ => False end -> ds_states d = [] ->
  option_map cd_objects (con_at (d_base (ds_b d)) (ci_handle (d_null (ds_b d)))) = Some [d_null_obj (ds_b d)] ->
  forall b0, finishes d (Ok b0) -> Q b0.
Proof.
  intros H Hs Hn b0 (ord & ordn & P & Pn & Ef). rewrite Hs in P. symmetry in P. apply Permutation_nil in P. subst ord.
  destruct (con_at (d_base (ds_b d)) (ci_handle (d_null (ds_b d)))) as [cd|]; [|discriminate]. injection Hn as Hn.
  specialize (Pn _ eq_refl). rewrite Hn in Pn. apply Permutation_sym, Permutation_length_1_inv in Pn. subst ordn.
  unfold lf_finish in H. rewrite Hs, Ef in H. exact H.
Qed.
Lemma lf_err d c : match fst (lf_call d c) with Err _ => True | _ => False end ->
  exists e, deserialize_objects d c = (Err e, snd (lf_call d c)).
Proof. unfold lf_call. destruct (deserialize_objects d c) as [[u|e|] d']; cbn; intros []. eauto. Qed.
Lemma lf_err1 : exists e, deserialize_objects (lf0 (FU8 1)) dsCon = (Err e, lf1 (FU8 1)).
Proof. unfold lf1. apply lf_err. vm_compute. exact Logic.I. Qed.
Lemma lf_none0 : forall b0, finishes (lf0 (FU8 1)) (Ok b0) -> field_of b0 dsCon 0 (mkIndex 1 0%N) = None.
Proof. apply (lf_only (fun b0 => field_of b0 dsCon 0 (mkIndex 1 0%N) = None)); vm_compute; reflexivity. Qed.
(** "A load that fails loads nothing" is false: objects made before the bad one stay, and
    [finish] returns them. *)
Theorem C64_failed_load_leaves_nothing_refuted :
  exists fb cs asked d c e d' b' o v,
    cs_ok cs /\ unshared fb /\ loads fb KMain cs asked d /\ In c cs /\ ~ In c asked /\
    deserialize_objects d c = (Err e, d') /\ finishes d' (Ok b') /\ field_of b' c 0 o = Some v /\
    (forall b0, finishes d (Ok b0) -> field_of b0 c 0 o = None).
Proof.
  destruct (lf_half _ (or_introl eq_refl)) as [H1 [H2 [H3 [H4 [_ [b' [H6 [H7 _]]]]]]]].
  destruct lf_err1 as [e E].
  exists (lfFb (FU8 1)), [dsCon], [], (lf0 (FU8 1)), dsCon, e, (lf1 (FU8 1)), b', (mkIndex 1 0%N), (PPrim (VU8 7)).
  split; [exact H1|]. split; [exact H2|]. split; [exact H3|]. split; [left; reflexivity|]. split; [intros []|].
  split; [exact E|]. split; [exact H6|]. split; [|exact lf_none0].
  assert (K : nth_error (lf_seen b' dsCon 0 [0; 1; 2; 3]) 1 = Some (Some (PPrim (VU8 7)))) by (rewrite H7; reflexivity).
  unfold lf_seen in K. cbn [map nth_error] in K. injection K as K. exact K.
Qed.
Print Assumptions C64_failed_load_leaves_nothing_refuted.

(** Asking again, and catching the panic: one object of the buffer becomes two. *)
Definition lfLeaf : contract_ty := mkCty (mkCid "ex.leaf" (0%N, 0%N, 2%N)) [TPrim TU8] ["a"] [] [].
Definition lfLeafCon : contract_inst := mkCinst lfLeaf (mkIndex 1 0%N).
Definition lfLeafFb : fb_baseline :=
  dsMk (Some [mkFbContract (Some (mkFbCid (Some "ex.leaf") (0%N, 0%N, 2%N))) (Some (mkFbCstates (Some ["a"]) (Some [KU8])))])
       (Some [mkFbObject (Some 0%N) (Some [0%N])]) (Some [FU8 5]).
Definition lfL0 : deser := deser_new (snd (ds_builder lfLeafFb [lfLeaf])).
Definition lfL1 : deser := snd (lf_call lfL0 lfLeafCon).
Definition lfL2 : deser := snd (lf_call lfL1 lfLeafCon).

Theorem C64_asking_again_can_load_twice_refuted :
  exists fb c asked d b' o1 o2 v,
    (forall j, buf_object fb j <> None -> j = 0) /\ cs_ok [c] /\ unshared fb /\
    loads_any fb KMain [c] asked d /\ finishes d (Ok b') /\ o1 <> o2 /\
    field_of b' c 0 o1 = Some v /\ field_of b' c 0 o2 = Some v.
Proof.
  destruct (lf_finishes (fun b => lf_seen b lfLeafCon 0 [1; 2] = [Some (PPrim (VU8 5)); Some (PPrim (VU8 5))]) lfL2) as [b' [H1 H2]].
  { vm_compute. reflexivity. }
  { intros cd Hcd. vm_compute in Hcd. injection Hcd as <-. reflexivity. }
  exists lfLeafFb, lfLeafCon, (([] ++ [lfLeafCon]) ++ [lfLeafCon]), lfL2, b', (mkIndex 1 0%N), (mkIndex 2 0%N), (PPrim (VU8 5)).
  split. { intros [|[|j]] H; [reflexivity| |]; destruct H; reflexivity. }
  split; [repeat constructor|].
  split. { intros j i j' i' n oi K1 K2 K3. exfalso. destruct j as [|j].
    - destruct i as [|[|i]]; try discriminate. cbn in K1. injection K1 as <-. discriminate.
    - unfold buf_indices, buf_object in K1. destruct j, i; discriminate. }
  split. { apply lf_any; [|left; reflexivity]. apply lf_any; [|left; reflexivity]. constructor. apply ds_builds. vm_compute. reflexivity. }
  split; [exact H1|]. split; [discriminate|]. unfold lf_seen in H2. cbn [map] in H2. injection H2 as -> ->. auto.
Qed.
Print Assumptions C64_asking_again_can_load_twice_refuted.
(** The first call succeeded, the second panicked. *)
Example lf_again : fst (lf_call lfL0 lfLeafCon) = Ok tt /\ fst (lf_call lfL1 lfLeafCon) = Panic.
Proof. split; vm_compute; reflexivity. Qed.
