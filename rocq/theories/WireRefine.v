(** The bytes the serializer writes are those of the tables of [Serializer.v]. *)
From Verif Require Import WireSerial Wire WireWrite WireRead WireBuild WireSchema.
From Verif Require Text.
From Verif Require Import BaselineSpec.
Open Scope nat_scope.

(** A value a Rust program can hold in a state. *)
Definition typed (v : dynprop) : Prop :=
  match v with
  | PPrim p =>
      match p with
      | VU8 x => 0 <= x < 2 ^ 8 | VU16 x => 0 <= x < 2 ^ 16 | VU32 x => 0 <= x < 2 ^ 32 | VU64 x => 0 <= x < 2 ^ 64
      | VI8 x => - 2 ^ 7 <= x < 2 ^ 7 | VI16 x => - 2 ^ 15 <= x < 2 ^ 15
      | VI32 x => - 2 ^ 31 <= x < 2 ^ 31 | VI64 x => - 2 ^ 63 <= x < 2 ^ 63
      | VF32 x => 0 <= x < 2 ^ 32 | VF64 x => 0 <= x < 2 ^ 64
      | VString s => utf8 s
      | VBool _ | VObjectHandle _ | VContractDataHandle _ => True
      end%Z
  | PVec _ => True
  end.
Lemma typed_format : forall v x, typed v -> ser_value v = Ok (Some x) -> in_format x.
Proof.
  intros [p|p] x T E; cbn [ser_value] in E; [|discriminate E].
  destruct p; cbn [typed] in T; assert (EX := f_equal (fun o => match o with Ok (Some y) => y | _ => x end) E); cbn in EX;
    try discriminate E; subst x; cbn [in_format]; try exact T; try exact I.
  - unfold slot_f32. destruct (f32_eqb bits 0) eqn:F; (split; [lia|]); [reflexivity|congruence].
  - unfold slot_f64. destruct (f64_eqb bits 0) eqn:F; (split; [lia|]); [reflexivity|congruence].
Qed.

(** ** What is in the builder *)
Definition state_rep (b : build) (o : nat) (x : option fbval) : Prop :=
  match x with Some v => wrote read_state ver_state b o v (tables_state v) (state_cost v) | None => True end.
Definition parts (bb : build) (w : wr) (s : ser) : Prop :=
  Forall2 (fun o c => wrote read_contract ver_contract bb o c (tables_contract c) (contract_cost_of c)) (w_cs w) (sr_contracts s) /\
  Forall2 (state_rep bb) (w_ss w) (sr_states s) /\
  Forall2 (fun o x => wrote read_object ver_object bb o x (tables_object x) (object_cost x)) (w_os w) (sr_objects s).
Definition rep (s : ser) (w : wr) : Prop := sound (wb w) /\ parts (wb w) w s.

Lemma Forall2_mono : forall A B (P Q : A -> B -> Prop) l m, (forall x y, P x y -> Q x y) -> Forall2 P l m -> Forall2 Q l m.
Proof. intros A B P Q l m H F. induction F; constructor; auto. Qed.
Lemma state_rep_grows : forall a b o x, grows a b -> sound a -> sound b -> state_rep a o x -> state_rep b o x.
Proof.
  intros a b o [v|] G SA SB W; cbn [state_rep] in *; [|exact I].
  eapply wrote_grows; [apply state_shift|exact G|exact (proj2 SA)|exact (proj2 SB)|exact W].
Qed.
Lemma parts_grows : forall a b w s, grows a b -> sound a -> sound b -> parts a w s -> parts b w s.
Proof.
  intros a b w s G SA SB (P1 & P2 & P3). split; [|split].
  - eapply Forall2_mono; [|exact P1]. intros x y W. eapply wrote_grows; [apply contract_shift|exact G|exact (proj2 SA)|exact (proj2 SB)|exact W].
  - eapply Forall2_mono; [|exact P2]. intros x y W. eapply state_rep_grows; eassumption.
  - eapply Forall2_mono; [|exact P3]. intros x y W. eapply wrote_grows; [apply object_shift|exact G|exact (proj2 SA)|exact (proj2 SB)|exact W].
Qed.

(** A step that only adds; if the result is small enough, what was represented still is. *)
Definition steps (s : ser) (w : wr) (s' : ser) (w' : wr) : Prop :=
  more (wb w) (wb w') /\ (small (wb w') -> rep s w -> grows (wb w) (wb w') /\ rep s' w').
Lemma steps_refl : forall s w, steps s w s w.
Proof. intros s w. split; [apply more_refl|]. intros _ R. split; [apply grows_refl|exact R]. Qed.
Lemma steps_trans : forall s w s1 w1 s2 w2, steps s w s1 w1 -> steps s1 w1 s2 w2 -> steps s w s2 w2.
Proof.
  intros s w s1 w1 s2 w2 [M1 R1] [M2 R2]. split; [eapply more_trans; eassumption|]. intros SM R.
  destruct (R1 (more_small _ _ M2 SM) R) as [G1 R1']. destruct (R2 SM R1') as [G2 R2']. split; [eapply grows_trans; eassumption|exact R2'].
Qed.

Lemma w_state_more : forall v b t b', w_state v b = (t, b') -> more b b'.
Proof.
  intros v b t b' E. unfold w_state in E. destruct (w_value v b) as [p b1] eqn:WV.
  eapply more_trans; [|eapply create_table_more; exact E]. clear E.
  destruct v as [x|x|x|x|x|x|x|x|x|x|x|[s|]|i|i| |z]; cbn [w_value] in WV; try (eapply create_table_more; exact WV).
  destruct (create_string s b) as [o b2] eqn:CS. eapply more_trans; [eapply create_string_more; exact CS|eapply create_table_more; exact WV].
Qed.
Lemma w_contract_more : forall name ver names ks b t b', w_contract name ver names ks b = (t, b') -> more b b'.
Proof.
  intros name [[v1 v2] v3] names ks b t b' E. unfold w_contract in E.
  destruct (create_string name b) as [n b1] eqn:E1.
  destruct (create_table ((0, FOff n) :: opt 3 2 (Z.of_N v3) ++ opt 2 2 (Z.of_N v2) ++ opt 1 2 (Z.of_N v1)) b1) as [cid b2] eqn:E2.
  change (fun (a : list nat * build) (s : string) => let '(l, b) := a in let '(o, b0) := create_string s b in (l ++ [o], b0)) with add_string in E.
  destruct (fold_left add_string names ([], b2)) as [os b3] eqn:E3.
  destruct (create_vector os b3) as [nv b4] eqn:E4. destruct (create_bytes ks b4) as [kv b5] eqn:E5.
  destruct (create_table [(1, FOff kv); (0, FOff nv)] b5) as [cs b6] eqn:E6.
  eapply more_trans; [eapply create_string_more; exact E1|]. eapply more_trans; [eapply create_table_more; exact E2|].
  eapply more_trans; [eapply strings_more; exact E3|]. eapply more_trans; [eapply create_vector_more; exact E4|].
  eapply more_trans; [eapply create_bytes_more; exact E5|]. eapply more_trans; [eapply create_table_more; exact E6|eapply create_table_more; exact E].
Qed.

Section Refine.
Variable b : baseline.
Hypothesis TY : forall t h v, st_at b t h = Some v -> typed v.

(** ** One state *)
Lemma ser_state_inv : forall o s id i s', ser_state b o s id = (Ok i, s') ->
  exists x, sr_states s' = sr_states s ++ [x] /\ sr_contracts s' = sr_contracts s /\ sr_objects s' = sr_objects s /\
    i = as_u32 (length (sr_states s)) /\ (forall v, x = Some v -> in_format v).
Proof.
  intros o s id i s' E. unfold ser_state in E.
  destruct (bind_state b id o) as [h|e|]; try discriminate E.
  destruct (state_get b (pid_type id) h) as [v|e|] eqn:SG; try discriminate E.
  destruct (ser_value v) as [x|e|] eqn:SV; try discriminate E.
  assert (FM : forall y, x = Some y -> in_format y).
  { intros y ->. eapply typed_format; [|exact SV]. apply (TY (pid_type id) h). unfold st_at. rewrite SG. reflexivity. }
  exists x. assert (EI := f_equal fst E). assert (ES := f_equal snd E). cbn [fst snd] in EI, ES.
  assert (i = as_u32 (length (sr_states s))) by congruence. subst s'.
  destruct (pid_type id) as [p|p]; try destruct p; cbn [sr_states sr_contracts sr_objects]; auto 6.
Qed.

Lemma out_state_ser : forall o s w id r s' w', out_state b o s w id = (r, s', w') ->
  match r with
  | Ok h => exists i, ser_state b o s id = (Ok i, s')
  | Err e => ser_state b o s id = (Err e, s') /\ w' = w
  | Panic => ser_state b o s id = (Panic, s') /\ w' = w
  end.
Proof.
  intros o s w id r s' w' E. unfold out_state in E. destruct (ser_state b o s id) as [[i|e|] s1].
  - destruct (match last (sr_states s1) None with Some v => w_state v (wb w) | None => (WIP_DUMMY, wb w) end) as [p b1].
    destruct (w_state_handle i b1) as [h b2].
    assert (r = Ok h) by congruence. assert (s1 = s') by congruence. subst. eauto.
  - assert (r = Err e) by congruence. assert (s1 = s') by congruence. assert (w' = w) by congruence. subst. auto.
  - assert (r = Panic) by congruence. assert (s1 = s') by congruence. assert (w' = w) by congruence. subst. auto.
Qed.

Definition handle_at (bb : build) (h : nat) (i : N) : Prop := wrote (read_idx 4) (fun bf => ver_num bf 4) bb h i 1 num_cost.
Lemma out_state_steps : forall o s w id h s' w' i, out_state b o s w id = (Ok h, s', w') -> ser_state b o s id = (Ok i, s') ->
  steps s w s' w' /\ (small (wb w') -> rep s w -> handle_at (wb w') h i).
Proof.
  intros o s w id h s' w' i E SE. unfold out_state in E. rewrite SE in E.
  destruct (ser_state_inv _ _ _ _ _ SE) as (x & SS & SC & SO & SI & FM).
  rewrite SS, last_last in E.
  destruct (match x with Some v => w_state v (wb w) | None => (WIP_DUMMY, wb w) end) as [p b1] eqn:W1.
  destruct (w_state_handle i b1) as [h' b2] eqn:W2.
  assert (h' = h) by congruence. subst h'.
  assert (EW : w' = mkWr b2 (w_cs w) (w_ss w ++ [p]) (w_os w)) by congruence.
  assert (M1 : more (wb w) b1).
  { destruct x as [v|]; [eapply w_state_more; exact W1|]. assert (b1 = wb w) by congruence. subst. apply more_refl. }
  assert (M2 : more b1 b2) by (eapply create_table_more; exact W2).
  assert (IL : (Z.of_N i < pow 4)%Z).
  { subst i. unfold as_u32. change (pow 4) with (Z.of_N 4294967296). apply N2Z.inj_lt. apply N.mod_lt. discriminate. }
  assert (K : small b2 -> rep s w -> grows (wb w) b1 /\ sound b1 /\ state_rep b1 p x /\ grows b1 b2 /\ sound b2 /\ handle_at b2 h i).
  { intros SM [SB P]. assert (SM1 : small b1) by (eapply more_small; eassumption).
    assert (K1 : grows (wb w) b1 /\ sound b1 /\ state_rep b1 p x).
    { destruct x as [v|].
      - destruct (w_state_spec _ _ _ _ W1 (FM v eq_refl) SB SM1) as (G & S' & W). auto.
      - assert (b1 = wb w) by congruence. subst. split; [apply grows_refl|]. split; [exact SB|exact I]. }
    destruct K1 as (G1 & S1 & R1).
    destruct (handle_spec 4 i _ _ _ W2 ltac:(cbn; tauto) IL S1 SM) as (G2 & S2 & H2). auto 7. }
  subst w'. cbn [wb]. split.
  - split; [cbn [wb]; eapply more_trans; eassumption|]. cbn [wb]. intros SM R. destruct (K SM R) as (G1 & S1 & R1 & G2 & S2 & _).
    assert (G12 : grows (wb w) b2) by (eapply grows_trans; eassumption).
    split; [exact G12|]. destruct R as [SB P]. split; [exact S2|]. cbn [wb].
    apply (parts_grows _ _ _ _ G12 SB S2) in P. destruct P as (P1 & P2 & P3).
    unfold parts. cbn [w_cs w_ss w_os]. rewrite SS, SC, SO. split; [exact P1|]. split; [|exact P3].
    apply Forall2_app; [exact P2|]. constructor; [|constructor]. exact (state_rep_grows b1 b2 p x G2 S1 S2 R1).
  - intros SM R. apply (K SM R).
Qed.

(** ** Several states; objects *)
Lemma out_states_ser : forall ids o s w r s' w', out_states b o s w ids = (r, s', w') ->
  match r with
  | Ok l => exists idx, ser_states b o s ids = (Ok idx, s') /\ steps s w s' w' /\
                        (small (wb w') -> rep s w -> Forall2 (handle_at (wb w')) l idx)
  | Err e => ser_states b o s ids = (Err e, s')
  | Panic => ser_states b o s ids = (Panic, s')
  end.
Proof.
  induction ids as [|id ids IH]; intros o s w r s' w' E; cbn [out_states ser_states] in *.
  - assert (r = Ok []) by congruence. assert (s' = s) by congruence. assert (w' = w) by congruence. subst.
    exists []. split; [reflexivity|]. split; [apply steps_refl|]. intros _ _. constructor.
  - destruct (out_state b o s w id) as [[r1 s1] w1] eqn:E1. pose proof (out_state_ser _ _ _ _ _ _ _ E1) as SE.
    destruct r1 as [h|e|].
    + destruct SE as [i SE]. rewrite SE. destruct (out_state_steps _ _ _ _ _ _ _ _ E1 SE) as [ST HA].
      destruct (out_states b o s1 w1 ids) as [[r2 s2] w2] eqn:E2. specialize (IH o s1 w1 r2 s2 w2 E2).
      destruct r2 as [l|e|].
      * destruct IH as (idx & SE2 & ST2 & HA2). assert (r = Ok (h :: l)) by congruence. assert (s' = s2) by congruence. assert (w' = w2) by congruence. subst.
        rewrite SE2. exists (i :: idx). split; [reflexivity|]. split; [eapply steps_trans; eassumption|].
        intros SM R. assert (SM1 : small (wb w1)) by (eapply more_small; [exact (proj1 ST2)|exact SM]).
        destruct (proj2 ST SM1 R) as [G1 R1]. destruct (proj2 ST2 SM R1) as [G2 R2].
        constructor; [|apply HA2; assumption].
        eapply wrote_grows; [apply idx_shift|exact G2|exact (proj2 (proj1 R1))|exact (proj2 (proj1 R2))|apply HA; assumption].
      * assert (r = Err e) by congruence. assert (s' = s2) by congruence. subst. rewrite IH. reflexivity.
      * assert (r = Panic) by congruence. assert (s' = s2) by congruence. subst. rewrite IH. reflexivity.
    + destruct SE as [SE _]. rewrite SE. assert (r = Err e) by congruence. assert (s' = s1) by congruence. subst. reflexivity.
    + destruct SE as [SE _]. rewrite SE. assert (r = Panic) by congruence. assert (s' = s1) by congruence. subst. reflexivity.
Qed.

Definition chandle_at (bb : build) (ct : nat) (cidx : N) : Prop := wrote (read_idx 2) (fun bf => ver_num bf 2) bb ct cidx 1 num_cost.
Lemma out_object_ser : forall c cidx ct s w o r s' w', out_object b c cidx ct s w o = (r, s', w') ->
  ser_object b c cidx s o = (r, s') /\
  (forall u, r = Ok u -> more (wb w) (wb w') /\ (small (wb w') -> rep s w -> chandle_at (wb w) ct cidx -> grows (wb w) (wb w') /\ rep s' w')).
Proof.
  intros c cidx ct s w o r s' w' E. unfold out_object in E.
  destruct (out_states b o s w (state_ids (ci_ty c) (ci_handle c))) as [[r1 s1] w1] eqn:E1.
  pose proof (out_states_ser _ _ _ _ _ _ _ E1) as SE. destruct r1 as [l|e|].
  - destruct SE as (idx & SE & ST & HA). destruct (w_object ct l (wb w1)) as [t bb] eqn:WO.
    assert (SO : ser_object b c cidx s o = (Ok tt, s')).
    { unfold ser_object in *. rewrite SE in *. f_equal. cbn [snd] in E. congruence. }
    assert (r = Ok tt) by congruence. subst r. split; [exact SO|]. intros [] _.
    assert (EW : w' = mkWr bb (w_cs w1) (w_ss w1) (w_os w1 ++ [t])) by congruence. subst w'. cbn [wb].
    assert (ES : s' = mkSer (sr_contracts s1) (sr_states s1) (sr_objects s1 ++ [mkFbObject (Some cidx) (Some idx)])
                    (bm_insert index_eqb Nat.eqb o (length (sr_objects s1)) (hm_objects s1)) (hm_contracts s1) (hm_cstates s1) (hm_ostates s1)).
    { unfold ser_object in SO. rewrite SE in SO. congruence. }
    assert (M2 : more (wb w1) bb).
    { unfold w_object in WO. destruct (create_vector l (wb w1)) as [v b2] eqn:CV.
      eapply more_trans; [eapply create_vector_more; exact CV|eapply create_table_more; exact WO]. }
    split; [eapply more_trans; [exact (proj1 ST)|exact M2]|]. intros SM R CH.
    assert (SM1 : small (wb w1)) by (eapply more_small; eassumption).
    destruct (proj2 ST SM1 R) as [G1 R1].
    assert (CH1 : chandle_at (wb w1) ct cidx).
    { eapply wrote_grows; [apply idx_shift|exact G1|exact (proj2 (proj1 R))|exact (proj2 (proj1 R1))|exact CH]. }
    destruct (w_object_spec _ _ _ _ _ _ _ WO (proj1 R1) SM CH1 (HA SM1 R)) as (G2 & S2 & W2).
    split; [eapply grows_trans; eassumption|]. split; [exact S2|]. cbn [wb].
    destruct R1 as [SB1 P]. apply (parts_grows _ _ _ _ G2 SB1 S2) in P. destruct P as (P1 & P2 & P3).
    subst s'. unfold parts. cbn [w_cs w_ss w_os sr_contracts sr_states sr_objects].
    split; [exact P1|]. split; [exact P2|]. apply Forall2_app; [exact P3|]. constructor; [exact W2|constructor].
  - assert (r = Err e) by congruence. assert (s' = s1) by congruence. subst. unfold ser_object. rewrite SE.
    split; [reflexivity|]. intros u X. discriminate X.
  - assert (r = Panic) by congruence. assert (s' = s1) by congruence. subst. unfold ser_object. rewrite SE.
    split; [reflexivity|]. intros u X. discriminate X.
Qed.

Lemma out_objects_ser : forall ord c cidx ct s w r s' w', out_objects b c cidx ct s w ord = (r, s', w') ->
  ser_objects b c cidx s ord = (r, s') /\
  (forall u, r = Ok u -> more (wb w) (wb w') /\ (small (wb w') -> rep s w -> chandle_at (wb w) ct cidx -> grows (wb w) (wb w') /\ rep s' w')).
Proof.
  induction ord as [|o ord IH]; intros c cidx ct s w r s' w' E; cbn [out_objects ser_objects] in *.
  - assert (r = Ok tt) by congruence. assert (s' = s) by congruence. assert (w' = w) by congruence. subst.
    split; [reflexivity|]. intros u _. split; [apply more_refl|]. intros _ R _. split; [apply grows_refl|exact R].
  - destruct (out_object b c cidx ct s w o) as [[r1 s1] w1] eqn:E1. destruct (out_object_ser _ _ _ _ _ _ _ _ _ E1) as [SE ST].
    rewrite SE. destruct r1 as [u|e|].
    + destruct (ST u eq_refl) as [M1 R1]. destruct (IH _ _ _ _ _ _ _ _ E) as [SE2 ST2]. split; [exact SE2|].
      intros u2 EU. destruct (ST2 u2 EU) as [M2 R2]. split; [eapply more_trans; eassumption|]. intros SM R CH.
      destruct (R1 (more_small _ _ M2 SM) R CH) as [G1 RP1].
      assert (CH1 : chandle_at (wb w1) ct cidx) by (eapply wrote_grows; [apply idx_shift|exact G1|exact (proj2 (proj1 R))|exact (proj2 (proj1 RP1))|exact CH]).
      destruct (R2 SM RP1 CH1) as [G2 RP2]. split; [eapply grows_trans; eassumption|exact RP2].
    + assert (r = Err e) by congruence. assert (s' = s1) by congruence. subst. split; [reflexivity|]. intros u X. discriminate X.
    + assert (r = Panic) by congruence. assert (s' = s1) by congruence. subst. split; [reflexivity|]. intros u X. discriminate X.
Qed.

(** ** Contracts *)
Definition writable (C : contract_ty) : Prop :=
  let '(v1, v2, v3) := cid_ver (ct_id C) in
  (v1 < 2 ^ 16)%N /\ (v2 < 2 ^ 16)%N /\ (v3 < 2 ^ 16)%N /\ utf8 (cid_name (ct_id C)) /\ Forall utf8 (ct_state_names C).

Lemma kinds_back : forall ts ks, ser_types ts = Ok ks -> map kind_of_byte (map kind_byte ks) = ks.
Proof.
  induction ts as [|t ts IH]; intros ks E; cbn [ser_types] in E.
  - assert (ks = []) by congruence. subst. reflexivity.
  - destruct t as [|p]; [discriminate E|]. destruct (ser_types ts) as [l| |]; try discriminate E.
    assert (ks = kind_of_prim p :: l) by congruence. subst. cbn [map]. rewrite (IH l eq_refl). f_equal. destruct p; reflexivity.
Qed.

Lemma out_serialize_ser : forall s w c ord r s' w', out_serialize b s w c ord = (r, s', w') -> writable (ci_ty c) ->
  serialize b s c ord = (r, s') /\ (forall u, r = Ok u -> steps s w s' w').
Proof.
  intros s w c ord r s' w' E WR. unfold out_serialize in E. unfold serialize, ser_contract.
  destruct (contract_data_of b (ci_handle c)) as [cd|e|].
  2,3: (assert (s' = s) by congruence; subst; split; [congruence|intros u X; congruence]).
  destruct (ser_types (ct_states (ci_ty c))) as [ks|e|] eqn:ST.
  2,3: (assert (s' = s) by congruence; subst; split; [congruence|intros u X; congruence]).
  destruct (w_contract (cid_name (ct_id (ci_ty c))) (cid_ver (ct_id (ci_ty c))) (ct_state_names (ci_ty c)) (map kind_byte ks) (wb w)) as [t b1] eqn:WC.
  set (fc := mkFbContract (Some (mkFbCid (Some (cid_name (ct_id (ci_ty c)))) (cid_ver (ct_id (ci_ty c)))))
                          (Some (mkFbCstates (Some (ct_state_names (ci_ty c))) (Some ks)))) in *.
  set (s1 := mkSer (sr_contracts s ++ [fc]) (sr_states s) (sr_objects s) (hm_objects s)
               (bm_insert index_eqb Nat.eqb (ci_handle c) (length (sr_contracts s)) (hm_contracts s)) (hm_cstates s) (hm_ostates s)) in *.
  cbv zeta in E.
  destruct (N.eqb (as_u16 (length (sr_contracts s ++ [fc]))) 0) eqn:U0.
  - assert (r = Panic) by congruence. assert (s' = s1) by congruence. subst. split; [reflexivity|]. intros u X. discriminate X.
  - set (cidx := (as_u16 (length (sr_contracts s ++ [fc])) - 1)%N) in *. cbn [w_cs w_ss w_os] in E.
    destruct (w_contract_handle cidx b1) as [ct b2] eqn:WH.
    destruct (out_objects_ser _ _ _ _ _ _ _ _ _ E) as [SE SO]. split; [exact SE|]. intros u EU.
    destruct (SO u EU) as [M3 R3]. cbn [wb] in M3, R3.
    assert (M1 : more (wb w) b1) by (eapply w_contract_more; exact WC).
    assert (M2 : more b1 b2) by (eapply create_table_more; exact WH).
    split; [eapply more_trans; [exact M1|]; eapply more_trans; [exact M2|exact M3]|]. intros SM [SB P].
    assert (SM2 : small b2) by (eapply more_small; eassumption). assert (SM1 : small b1) by (eapply more_small; eassumption).
    unfold writable in WR. destruct (cid_ver (ct_id (ci_ty c))) as [[v1 v2] v3] eqn:CV. destruct WR as (V1 & V2 & V3 & UN & UNS).
    destruct (w_contract_spec _ _ _ _ _ _ _ _ _ WC SB SM1 V1 V2 V3 UN UNS) as (G1 & S1 & W1).
    assert (FC : contract_of (cid_name (ct_id (ci_ty c))) (v1, v2, v3) (ct_state_names (ci_ty c)) (map kind_byte ks) = fc).
    { unfold contract_of, fc. rewrite (kinds_back _ _ ST). reflexivity. }
    rewrite FC in W1. rewrite map_length in W1.
    assert (CL : (Z.of_N cidx < pow 2)%Z).
    { unfold cidx, as_u16. change (pow 2) with (Z.of_N 65536). apply N2Z.inj_lt.
      pose proof (N.mod_lt (N.of_nat (length (sr_contracts s ++ [fc]))) 65536 ltac:(discriminate)). lia. }
    destruct (handle_spec 2 cidx _ _ _ WH ltac:(cbn; tauto) CL S1 SM2) as (G2 & S2 & H2).
    assert (G12 : grows (wb w) b2) by (eapply grows_trans; eassumption).
    destruct (R3 SM) as [G3 RF].
    + split; [exact S2|]. cbn [wb]. apply (parts_grows _ _ _ _ G12 SB S2) in P. destruct P as (P1 & P2 & P3).
      unfold parts, s1. cbn [w_cs w_ss w_os sr_contracts sr_states sr_objects]. split; [|split; assumption].
      apply Forall2_app; [exact P1|]. constructor; [|constructor].
      assert (TF : tables_contract fc = 3%Z) by reflexivity. rewrite TF.
      assert (CF : contract_cost_of fc = contract_cost (cid_name (ct_id (ci_ty c))) (ct_state_names (ci_ty c)) (length ks)) by reflexivity.
      rewrite CF. eapply wrote_grows; [apply contract_shift|exact G2|exact (proj2 S1)|exact (proj2 S2)|exact W1].
    + exact H2.
    + split; [eapply grows_trans; eassumption|exact RF].
Qed.

Lemma out_all_ser : forall l s w r s' w', out_all b s w l = (r, s', w') -> Forall (fun p => writable (ci_ty (fst p))) l ->
  serialize_all b s l = (r, s') /\ (forall u, r = Ok u -> steps s w s' w').
Proof.
  induction l as [|[c ord] l IH]; intros s w r s' w' E F; cbn [out_all serialize_all] in *.
  - assert (r = Ok tt) by congruence. assert (s' = s) by congruence. assert (w' = w) by congruence. subst.
    split; [reflexivity|]. intros u _. apply steps_refl.
  - apply Forall_cons_iff in F. destruct F as [F1 F2]. cbn [fst] in F1.
    destruct (out_serialize b s w c ord) as [[r1 s1] w1] eqn:E1. destruct (out_serialize_ser _ _ _ _ _ _ _ E1 F1) as [SE ST].
    rewrite SE. destruct r1 as [u|e|].
    + destruct (IH _ _ _ _ _ E F2) as [SE2 ST2]. split; [exact SE2|]. intros u2 EU. eapply steps_trans; [apply (ST u eq_refl)|apply (ST2 u2 EU)].
    + assert (r = Err e) by congruence. assert (s' = s1) by congruence. subst. split; [reflexivity|]. intros u X. discriminate X.
    + assert (r = Panic) by congruence. assert (s' = s1) by congruence. subst. split; [reflexivity|]. intros u X. discriminate X.
Qed.

(** ** The second pass *)
Lemma Forall2_set : forall A B (P : A -> B -> Prop) l m i x y, Forall2 P l m -> P x y -> Forall2 P (list_set l i x) (list_set m i y).
Proof.
  intros A B P l m i x y F. revert i. induction F as [|a c l m H F IH]; intros i X; [constructor|].
  destruct i as [|i]; cbn [list_set]; constructor; auto.
Qed.
Lemma out_rewrite_ser : forall t look mk pairs states ws bb, (forall j, in_format (mk j)) ->
  match out_rewrite b t look mk pairs states ws bb with
  | Ok (st, ws', bb') =>
      rewrite_states b t look mk pairs states = Ok st /\ more bb bb' /\
      (small bb' -> sound bb -> Forall2 (state_rep bb) ws states -> grows bb bb' /\ sound bb' /\ Forall2 (state_rep bb') ws' st)
  | Err _ => False
  | Panic => rewrite_states b t look mk pairs states = Panic
  end.
Proof.
  intros t look mk. induction pairs as [|[h i] pairs IH]; intros states ws bb FM; cbn [out_rewrite rewrite_states].
  - split; [reflexivity|]. split; [apply more_refl|]. intros _ SB F. split; [apply grows_refl|]. split; assumption.
  - destruct (state_get b t h) as [v|e|]; try reflexivity. destruct (look v) as [j|]; [|reflexivity].
    destruct (nth_error states i) as [[x|]|]; try reflexivity.
    destruct (w_state (mk j) bb) as [p b1] eqn:WS.
    specialize (IH (list_set states i (Some (mk j))) (list_set ws i p) b1 FM).
    destruct (out_rewrite b t look mk pairs (list_set states i (Some (mk j))) (list_set ws i p) b1) as [[[st ws'] bb']|e|]; try exact IH.
    destruct IH as (RW & M & K). split; [exact RW|]. pose proof (w_state_more _ _ _ _ WS) as M1.
    split; [eapply more_trans; eassumption|]. intros SM SB F.
    assert (SM1 : small b1) by (eapply more_small; eassumption).
    destruct (w_state_spec _ _ _ _ WS (FM j) SB SM1) as (G1 & S1 & W1).
    destruct (K SM S1) as (G2 & S2 & F2).
    + apply Forall2_set; [|exact W1]. eapply Forall2_mono; [|exact F]. intros x y. apply state_rep_grows; assumption.
    + split; [eapply grows_trans; eassumption|]. split; assumption.
Qed.

Lemma reps_all : forall bb ws st vs, Forall2 (state_rep bb) ws st -> all_some st = Some vs ->
  Forall2 (fun o v => wrote read_state ver_state bb o v (tables_state v) (state_cost v)) ws vs.
Proof.
  intros bb ws st vs F. revert vs. induction F as [|o x ws st X _ IH]; intros vs E; cbn [all_some] in E.
  - assert (vs = []) by congruence. subst. constructor.
  - destruct x as [v|]; [|discriminate E]. destruct (all_some st) as [r|]; [|discriminate E].
    assert (vs = v :: r) by congruence. subst. constructor; [exact X|apply IH; reflexivity].
Qed.

Lemma w_half_spec : forall name ver names bb, let bb' := w_half name ver names bb in
  more bb bb' /\ (small bb' -> sound bb -> (let '(v1, v2, v3) := ver in v1 < 2 ^ 16 /\ v2 < 2 ^ 16 /\ v3 < 2 ^ 16)%N ->
    utf8 name -> Forall utf8 names -> grows bb bb' /\ sound bb').
Proof.
  intros name [[v1 v2] v3] names bb. cbv zeta. unfold w_half.
  destruct (create_string name bb) as [n b1] eqn:E1.
  destruct (create_table ((0, FOff n) :: opt 3 2 (Z.of_N v3) ++ opt 2 2 (Z.of_N v2) ++ opt 1 2 (Z.of_N v1)) b1) as [cid b2] eqn:E2.
  change (fun (a : list nat * build) (s : string) => let '(l, b) := a in let '(o, b0) := create_string s b in (l ++ [o], b0)) with add_string.
  destruct (fold_left add_string names ([], b2)) as [os b3] eqn:E3.
  destruct (create_vector os b3) as [nv b4] eqn:E4. cbn [snd]. split.
  - eapply more_trans; [eapply create_string_more; exact E1|]. eapply more_trans; [eapply create_table_more; exact E2|].
    eapply more_trans; [eapply strings_more; exact E3|eapply create_vector_more; exact E4].
  - intros SM4 SB (V1 & V2 & V3) UN UNS.
    assert (SM3 : small b3) by (eapply more_small; [eapply create_vector_more; exact E4|exact SM4]).
    assert (SM2 : small b2) by (eapply more_small; [eapply strings_more; exact E3|exact SM3]).
    assert (SM1 : small b1) by (eapply more_small; [eapply create_table_more; exact E2|exact SM2]).
    destruct (create_string_spec _ _ _ _ E1 SB SM1 UN) as (G1 & S1 & W1).
    destruct (cid_spec _ _ _ _ _ _ _ _ E2 S1 SM2 V1 V2 V3 W1) as (G2 & S2 & W2).
    destruct (strings_spec _ _ [] _ _ _ E3 S2 SM3 UNS (Forall2_nil _)) as (G3 & S3 & W3). cbn [app] in W3.
    assert (TC : forall s, (0 <= text_cost s)%Z) by (intros s; unfold text_cost; lia).
    destruct (create_vector_spec _ text ver_text (fun _ => 0%Z) text_cost _ _ _ _ _ E4 S3 SM4 text_shift (fun _ => Z.le_refl 0) TC W3) as (G4 & S4 & W4).
    split; [|exact S4]. eapply grows_trans; [exact G1|]. eapply grows_trans; [exact G2|]. eapply grows_trans; [exact G3|exact G4].
Qed.

Theorem finish_refines : forall ord sr w fb,
  steps ser_new wr_new sr w -> ser_finish b sr (fst (ord sr)) (snd (ord sr)) = Ok (Some fb) ->
  exists bytes, out_finish b sr w (fst (ord sr)) (snd (ord sr)) = Ok bytes /\
    ((Z.of_nat (length bytes) < 2 ^ 31)%Z ->
       firstn 4 (skipn 4 bytes) = prefix /\ read_root bytes = Some fb /\ ((tables fb <= max_tables)%Z -> (weight fb <= max_size)%Z -> exists s, verify bytes = Some s)).
Proof.
  intros ord sr w fb ST SF.
  unfold ser_finish in SF. unfold out_finish.
  assert (F1 : forall j, in_format (FContractDataHandle (as_u16 j))) by (intros j; cbn [in_format]; unfold as_u16; apply N.mod_lt; discriminate).
  assert (F2 : forall j, in_format (FObjectHandle (as_u32 j))) by (intros j; cbn [in_format]; unfold as_u32; apply N.mod_lt; discriminate).
  pose proof (out_rewrite_ser (TPrim TContractDataHandle) (look_contract sr) (fun j => FContractDataHandle (as_u16 j)) (fst (ord sr))
                (sr_states sr) (w_ss w) (wb w) F1) as R1.
  destruct (out_rewrite b (TPrim TContractDataHandle) (look_contract sr) (fun j => FContractDataHandle (as_u16 j)) (fst (ord sr))
                (sr_states sr) (w_ss w) (wb w)) as [[[st1 ws1] bb1]|e|]; [|contradiction|rewrite R1 in SF; discriminate SF].
  destruct R1 as (RW1 & M1 & K1). rewrite RW1 in SF.
  pose proof (out_rewrite_ser (TPrim TObjectHandle) (look_object sr) (fun j => FObjectHandle (as_u32 j)) (snd (ord sr)) st1 ws1 bb1 F2) as R2.
  destruct (out_rewrite b (TPrim TObjectHandle) (look_object sr) (fun j => FObjectHandle (as_u32 j)) (snd (ord sr)) st1 ws1 bb1) as [[[st2 ws2] bb2]|e|];
    [|contradiction|rewrite R2 in SF; discriminate SF].
  destruct R2 as (RW2 & M2 & K2). rewrite RW2 in SF.
  eexists. split; [reflexivity|]. intros SM.
  destruct (all_some st2) as [vs|] eqn:AS; [|discriminate SF].
  assert (EF : fb = mkFb (Some (sr_contracts sr)) (Some vs) (Some (sr_objects sr))) by congruence. subst fb.
  assert (SM2 : small bb2).
  { unfold small. assert (used bb2 <= length (w_finish (w_cs w) ws2 (w_os w) bb2)); [|lia].
    unfold w_finish. destruct (create_vector (w_cs w) bb2) as [c b1] eqn:E1. destruct (create_vector ws2 b1) as [s b2] eqn:E2.
    destruct (create_vector (w_os w) b2) as [o b3] eqn:E3. destruct (create_table [(2, FOff o); (1, FOff s); (0, FOff c)] b3) as [r b4] eqn:E4.
    apply create_vector_more in E1. apply create_vector_more in E2. apply create_vector_more in E3. apply create_table_more in E4.
    apply more_used in E1, E2, E3, E4. unfold finish.
    assert (M : more b4 (push (FOff r) (prepend prefix (align 8 (ma b4) b4))))
      by (eapply more_trans; [apply align_more|eapply more_trans; [apply prepend_more|apply push_more]]).
    apply more_used in M. unfold used in M at 2. lia. }
  assert (SM1 : small bb1) by (eapply more_small; eassumption).
  assert (SM0 : small (wb w)) by (eapply more_small; eassumption).
  assert (R0 : rep ser_new wr_new) by (split; [apply sound_new|split; [|split]; constructor]).
  destruct (proj2 ST SM0 R0) as [G0 [SB P]]. destruct P as (P1 & P2 & P3).
  destruct (K1 SM1 SB P2) as (G1 & S1 & FS1). destruct (K2 SM2 S1 FS1) as (G2 & S2 & FS2).
  assert (G12 : grows (wb w) bb2) by (eapply grows_trans; eassumption).
  apply (w_finish_spec (w_cs w) ws2 (w_os w) (sr_contracts sr) vs (sr_objects sr) bb2 _ eq_refl S2 SM).
  - eapply Forall2_mono; [|exact P1]. intros x y W. eapply wrote_grows; [apply contract_shift|exact G12|exact (proj2 SB)|exact (proj2 S2)|exact W].
  - apply (reps_all _ _ _ _ FS2 AS).
  - eapply Forall2_mono; [|exact P3]. intros x y W. eapply wrote_grows; [apply object_shift|exact G12|exact (proj2 SB)|exact (proj2 S2)|exact W].
Qed.

Theorem save_refines : forall l ord sr fb,
  Forall (fun p => writable (ci_ty (fst p))) l ->
  serialize_all b ser_new l = (Ok tt, sr) -> ser_finish b sr (fst (ord sr)) (snd (ord sr)) = Ok (Some fb) ->
  exists bytes, save b l ord = Ok bytes /\
    ((Z.of_nat (length bytes) < 2 ^ 31)%Z ->
       firstn 4 (skipn 4 bytes) = prefix /\ read_root bytes = Some fb /\ ((tables fb <= max_tables)%Z -> (weight fb <= max_size)%Z -> exists s, verify bytes = Some s)).
Proof.
  intros l ord sr fb WR SA SF. unfold save.
  destruct (out_all b ser_new wr_new l) as [[r s] w] eqn:OA. destruct (out_all_ser _ _ _ _ _ _ OA WR) as [SE ST].
  rewrite SE in SA. assert (r = Ok tt) by congruence. assert (s = sr) by congruence. subst r s. specialize (ST tt eq_refl).
  exact (finish_refines ord sr w fb ST SF).
Qed.
End Refine.
