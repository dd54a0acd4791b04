(** C63, down to the bytes: the file written after failed calls can be loaded. *)
From Verif Require Import BaseProofs PropertiesTags PropertiesBaseline SerProofs PropertiesSer PropertiesRound PropertiesSerFail.
From Verif Require Import WireSerial Wire WireWrite WireBuild WireRead WireSchema WireRefine WireSize PropertiesWire.
Import Coq.Strings.String.StringSyntax.
Open Scope string_scope.
Open Scope list_scope.
Open Scope nat_scope.

(** ** Specification *)

(** The program of [serialize_each], with the bytes it writes, and [finish] in the end:
    the answers of the calls and the file. *)
Fixpoint out_each (b : baseline) (s : ser) (w : wr) (l : list (contract_inst * list index))
  : list (outcome unit) * ser * wr :=
  match l with
  | [] => ([], s, w)
  | (c, ord) :: t =>
      match out_serialize b s w c ord with
      | (Panic, s1, w1) => ([Panic], s1, w1)
      | (r, s1, w1) => let '(rs, s2, w2) := out_each b s1 w1 t in (r :: rs, s2, w2)
      end
  end.
Definition save_each (b : baseline) (l : list (contract_inst * list index)) (ord : ser -> list (index * nat) * list (index * nat))
  : list (outcome unit) * outcome (list Z) :=
  let '(rs, s, w) := out_each b ser_new wr_new l in
  (rs, if existsb is_panic rs then Panic else out_finish b s w (fst (ord s)) (snd (ord s))).

(** ** Proofs *)
Lemma out_object_dead b c cidx ct s w o : ct_states (ci_ty c) <> [] -> obj_at b o = None ->
  out_object b c cidx ct s w o = (Err EBindFailed, s, w).
Proof.
  intros Hn Ho. destruct (states_first _ (ci_handle c) Hn) as [id [t E]]. unfold out_object. rewrite E. cbn [out_states].
  unfold out_state, ser_state, bind_state. unfold obj_at in Ho. rewrite Ho. reflexivity.
Qed.
Lemma out_objects_stop b c cidx ct : forall ord s w s' w',
  (ct_states (ci_ty c) = [] -> forall o, In o ord -> obj_at b o <> None) ->
  out_objects b c cidx ct s w (up_to_removed b ord) = (Ok tt, s', w') ->
  out_objects b c cidx ct s w ord = ((if forallb (live_object b) ord then Ok tt else Err EBindFailed), s', w').
Proof.
  induction ord as [|o ord IH]; intros s w s' w' Hne E; cbn [up_to_removed forallb] in *; [exact E|].
  destruct (live_object b o) eqn:El.
  - cbn [out_objects andb] in *. destruct (out_object b c cidx ct s w o) as [[[u|e|] s1] w1]; try discriminate E.
    apply IH; auto. intros H x Hx. apply Hne; [auto|right; auto].
  - cbn [out_objects] in E. cbn [out_objects andb]. unfold live_object in El. destruct (obj_at b o) as [ob|] eqn:Eo; [discriminate|].
    rewrite out_object_dead; auto; [congruence|]. intros H. exact (Hne H o (or_introl eq_refl) Eo).
Qed.

Lemma w_half_clean name ver names bb : clean bb -> clean (w_half name ver names bb).
Proof.
  destruct ver as [[v1 v2] v3]. intros C. unfold w_half.
  destruct (create_string name bb) as [n b1] eqn:E1. destruct (create_table _ b1) as [cid b2] eqn:E2.
  change (fold_left _ names ([], b2)) with (fold_left add_string names ([], b2)).
  destruct (fold_left add_string names ([], b2)) as [os b3] eqn:E3.
  destruct (create_vector os b3) as [nv b4] eqn:E4. cbn [snd]. eapply vector_clean; [exact E4|].
  assert (C2 : clean b2) by (eapply table_clean; [exact E2|]; eapply string_clean'; [exact E1|exact C]).
  clear - E3 C2. revert E3 C2. generalize (@nil nat). revert b2. induction names as [|s names IH]; intros b2 l E C; cbn [fold_left] in E.
  - assert (b3 = b2) by congruence. subst. exact C.
  - unfold add_string at 2 in E. destruct (create_string s b2) as [o b4] eqn:S. eapply IH; [exact E|]. eapply string_clean'; [exact S|exact C].
Qed.

Section Fail.
Variables (b : baseline) (s : rstate) (fs fc : index -> list index).
Hypothesis Hr : rrel b s fs fc.
Hypothesis TY : forall t h v, st_at b t h = Some v -> typed v.

Lemma out_skip sr w c ord : entered b c = false -> writable (ci_ty c) ->
  exists w1, out_serialize b sr w c ord = (answer b c ord, sr, w1) /\ serialize b sr c ord = (answer b c ord, sr) /\
    steps sr w sr w1 /\ light sr w sr w1 /\ (clean (wb w) -> clean (wb w1)).
Proof.
  intros He W1. destruct (out_serialize b sr w c ord) as [[r s1] w1] eqn:EO.
  destruct (out_serialize_ser b TY _ _ _ _ _ _ _ EO W1) as [ES _].
  assert (E : serialize b sr c ord = (answer b c ord, sr)).
  { clear - He. unfold entered in He. unfold answer, serialize, contract_data_of. unfold live_contract, con_at in *.
    destruct (Arena.get (b_contracts b) (ci_handle c)) as [cd|] eqn:Eg; cbn [negb].
    + cbn in He. destruct (has_vector c) eqn:Hv; [|discriminate]. unfold ser_contract. cbn [ok_or]. rewrite (ser_types_vec _ Hv). reflexivity.
    + reflexivity. }
  rewrite E in ES. injection ES as <- <-. exists w1. split; [reflexivity|]. split; [exact E|].
  unfold out_serialize in EO. unfold entered, live_contract, con_at in He. unfold contract_data_of in EO.
  destruct (Arena.get (b_contracts b) (ci_handle c)) as [cd|]; cbn [ok_or] in EO.
  - cbn [andb] in He. assert (Hv : has_vector c = true) by (destruct (has_vector c); [reflexivity|discriminate He]).
    rewrite (ser_types_vec _ Hv) in EO. cbv zeta in EO. injection EO as _ <-.
    destruct (w_half_spec (cid_name (ct_id (ci_ty c))) (cid_ver (ct_id (ci_ty c))) (ct_state_names (ci_ty c)) (wb w)) as [M K].
    split; [|split].
    + split; [exact M|]. cbn [wb]. intros SM [SB P]. unfold writable in W1. destruct (cid_ver (ct_id (ci_ty c))) as [[v1 v2] v3].
      destruct W1 as (V1 & V2 & V3 & UN & UNS). destruct (K SM SB (conj V1 (conj V2 V3)) UN UNS) as [G S1].
      split; [exact G|]. split; [exact S1|]. cbn [wb]. apply (parts_grows _ _ _ _ G SB S1) in P. exact P.
    + unfold light. cbn [wb]. apply more_used in M. lia.
    + cbn [wb]. intros C. apply w_half_clean. exact C.
  - injection EO as _ <-. split; [apply steps_refl|]. split; [unfold light; lia|auto].
Qed.

Lemma out_call sr w c ord : target b s c ord -> ~ full sr -> writable (ci_ty c) ->
  exists sr' w', out_serialize b sr w c ord = (answer b c ord, sr', w') /\ serialize b sr c ord = (answer b c ord, sr') /\
    steps sr w sr' w' /\ light sr w sr' w' /\ (clean (wb w) -> clean (wb w')).
Proof.
  intros Ht Hf WR. destruct (one_call _ _ _ _ Hr sr c ord Ht Hf) as [[He E]|[He [sr' [E1 [E2 _]]]]].
  - destruct (out_skip sr w c ord He WR) as [w1 K]. exists sr, w1. exact K.
  - destruct (out_serialize b sr w c (up_to_removed b ord)) as [[r s1] w1] eqn:EO. destruct (out_serialize_ser b TY _ _ _ _ _ _ _ EO WR) as [ES ST].
    rewrite E2 in ES. injection ES as <- <-. exists sr', w1. split.
    + assert (Hne : ct_states (ci_ty c) = [] -> forall o, In o ord -> obj_at b o <> None).
      { destruct Ht as [E|[_ [_ H]]]; auto. unfold entered, live_contract in He. rewrite E in He. discriminate. }
      unfold out_serialize in EO |- *. unfold answer. unfold entered in He. apply andb_prop in He. destruct He as [H1 H2].
      apply negb_true_iff in H2. rewrite H1, H2. cbn [negb].
      destruct (contract_data_of b (ci_handle c)) as [cd|e|]; try discriminate EO.
      destruct (ser_types (ct_states (ci_ty c))) as [ks|e|]; try discriminate EO. cbv zeta in EO |- *.
      match type of EO with (let '(_, _) := ?x in _) = _ => destruct x as [t bb] end.
      destruct (N.eqb _ 0); [discriminate EO|].
      match type of EO with (let '(_, _) := ?x in _) = _ => destruct x as [ct b2] end.
      apply out_objects_stop; auto.
    + split; [exact E1|]. split; [exact (ST tt eq_refl)|]. split; [eapply out_serialize_light; exact EO|].
      intros C. eapply out_serialize_clean; [exact EO|exact C].
Qed.

Lemma out_each_spec : forall l sr w, (forall c ord, In (c, ord) l -> target b s c ord) ->
  Forall (fun p => writable (ci_ty (fst p))) l ->
  (N.of_nat (length (sr_contracts sr) + length (kept b l)) < 65536)%N ->
  exists sr' w', out_each b sr w l = (map (fun p => answer b (fst p) (snd p)) l, sr', w') /\
    serialize_all b sr (kept b l) = (Ok tt, sr') /\
    steps sr w sr' w' /\ light sr w sr' w' /\ (clean (wb w) -> clean (wb w')).
Proof.
  induction l as [|[c ord] l IH]; intros sr w Ht WR Hlt.
  - exists sr, w. split; [reflexivity|]. split; [reflexivity|]. split; [apply steps_refl|]. split; [unfold light; lia|auto].
  - inversion WR as [|x y W1 W2]; subst x y. cbn [fst] in W1.
    assert (Hna : answer b c ord <> Panic).
    { unfold answer. destruct (negb (live_contract b c)), (has_vector c), (forallb (live_object b) ord); discriminate. }
    assert (Ht' : forall c' ord', In (c', ord') l -> target b s c' ord') by (intros c' ord' Hin; apply Ht; right; auto).
    cbn [out_each map fst snd].
    destruct (entered b c) eqn:He.
    + rewrite kept_cons, He in Hlt |- *. cbn [length serialize_all] in Hlt |- *.
      assert (Hf : ~ full sr).
      { unfold full. rewrite N.mod_small; lia. }
      pose proof (Ht _ _ (or_introl eq_refl)) as Ht1.
      destruct (out_call sr w c ord Ht1 Hf W1) as [sr1 [w1 [E1 [E2 [S1 [L1 C1]]]]]].
      destruct (one_call _ _ _ _ Hr sr c ord Ht1 Hf) as [[He' _]|[_ [sr1' [F1 [F2 [[fc0 [F3 _]] _]]]]]]; [congruence|].
      rewrite E2 in F1. injection F1 as <-. rewrite F2.
      destruct (IH sr1 w1 Ht' W2) as [sr' [w' [G1 [G2 [G3 [G4 G5]]]]]].
      { rewrite F3, app_length. cbn [length]. lia. }
      exists sr', w'. rewrite E1, G1. split; [destruct (answer b c ord); [reflexivity|reflexivity|tauto]|]. split; [exact G2|].
      split; [eapply steps_trans; eassumption|]. split; [unfold light in *; lia|auto].
    + rewrite kept_cons, He in Hlt |- *.
      destruct (out_skip sr w c ord He W1) as [w1 [E1 [_ [S1 [L1 C1]]]]].
      destruct (IH sr w1 Ht' W2 Hlt) as [sr' [w' [G1 [G2 [G3 [G4 G5]]]]]].
      exists sr', w'. rewrite E1, G1. split; [destruct (answer b c ord); [reflexivity|reflexivity|tauto]|]. split; [exact G2|].
      split; [eapply steps_trans; eassumption|]. split; [unfold light in *; lia|auto].
Qed.
End Fail.

(** ** Theorems *)

(** The file written after any number of ignored failures holds exactly what was kept,
    and can be loaded (up to the limits of C52). *)
Theorem C63_file_after_failures :
  forall k ops rs b l,
    crun (baseline_new k) ops = (rs, b) -> existsb is_panic rs = false -> all_disciplined rs_empty ops rs ->
    attempt b (rfinal rs_empty ops rs) l -> fits_format (kept b l) -> closed b (kept b l) ->
    rust_values b l -> (saved_tables (kept b l) <= 1000000)%Z ->
    forall ord, (forall sr, Permutation (fst (ord sr)) (hm_cstates sr) /\ Permutation (snd (ord sr)) (hm_ostates sr)) ->
    exists bytes, save_each b l ord = (map (fun p => answer b (fst p) (snd p)) l, Ok bytes) /\ file bytes /\
      ((Z.of_nat (length bytes) <= 1000000000)%Z ->
       exists fb, load bytes = Some (Some fb) /\ encodes b (kept b l) fb).
Proof.
  intros k ops rs b l Hc Hp Hd Hat Hfit Hclo [TY WR] HT ord HO.
  destruct (rfinal_rrel _ _ _ _ _ _ _ (rrel_empty k) Hc Hp Hd) as [fs [fc Hr]].
  destruct (kept_part _ _ _ _ Hr _ Hat) as [H1 [H2 H3]].
  destruct (buffer_of_part _ _ _ _ _ Hr H1 H2 H3 Hfit) as [sr [SA Hfin]].
  destruct (HO sr) as [O1 O2]. destruct (proj1 (Hfin _ _ O1 O2) Hclo) as [fb [SF EN]].
  destruct (out_each_spec _ _ _ _ Hr TY l ser_new wr_new (proj1 Hat) WR) as [sr' [w [E1 [E2 [ST [LI CL]]]]]]. { exact (proj1 Hfit). }
  rewrite SA in E2. injection E2 as <-.
  destruct (finish_refines b ord sr w fb ST SF) as [bytes [OF K]].
  exists bytes. unfold save_each. rewrite E1.
  assert (NP : existsb is_panic (map (fun p => answer b (fst p) (snd p)) l) = false).
  { clear. induction l as [|[c o] l IH]; [reflexivity|]. cbn [map existsb fst snd]. rewrite IH, orb_false_r. unfold answer.
    destruct (negb (live_contract b c)), (has_vector c), (forallb (live_object b) o); reflexivity. }
  rewrite NP, OF. split; [reflexivity|]. split.
  { apply (finish_bytes b ord sr w bytes); [apply CL; constructor|exact OF]. }
  intros SM. exists fb. split; [|exact EN].
  destruct K as (_ & R & A); [change (2 ^ 31)%Z with 2147483648%Z; lia|].
  rewrite <- (saved_count b (kept b l) _ _ sr fb SA SF) in HT.
  pose proof (weight_mass fb) as W. pose proof (finish_mass b ord sr w fb bytes LI OF SF) as M.
  destruct A as [x V]; [exact HT|unfold max_size; change (2 ^ 31)%Z with 2147483648%Z; lia|]. unfold load. rewrite V, R. reflexivity.
Qed.
Print Assumptions C63_file_after_failures.

(** ** A concrete case: the run of [sf_run] *)
Example wf_values : rust_values sfB sfL /\ (saved_tables (kept sfB sfL) <= 1000000)%Z.
Proof.
  split; [split|].
  - apply wi_typed. vm_compute. reflexivity.
  - unfold sfL. repeat (apply Forall_cons || apply Forall_nil); repeat constructor; vm_compute; reflexivity.
  - vm_compute. discriminate.
Qed.
Definition wfFile : list Z := match snd (save_each sfB sfL wiOrd) with Ok l => l | _ => [] end.
Example wf_applies : exists fb, load wfFile = Some (Some fb) /\ encodes sfB (kept sfB sfL) fb.
Proof.
  destruct sf_history as (H1 & H2 & H3). destruct sf_hypotheses as (G1 & _ & G3 & G4 & _). destruct wf_values as [G5 G6].
  destruct (C63_file_after_failures _ _ _ _ _ H1 H2 H3 G1 G3 G4 G5 G6 wiOrd) as (bytes & E & _ & K).
  - intros sr. split; apply Permutation_refl.
  - assert (W : wfFile = bytes) by (unfold wfFile; rewrite E; reflexivity). rewrite W. apply K. rewrite <- W. vm_compute. discriminate.
Qed.
(** The three failed calls leave their bytes in the file: it is longer than the one that
    holds the same things and was written without a failure. Both load to the same. *)
Example wf_longer :
  fst (save_each sfB sfL wiOrd) = [Err EVectorsUnsupported; Err EBindFailed; Err ENoContractForHandle] /\
  length wfFile = 344 /\
  match save sfB (kept sfB sfL) wiOrd with
  | Ok clean_file => length clean_file = 284 /\ load clean_file = load wfFile
  | _ => False
  end.
Proof. vm_compute. auto. Qed.
