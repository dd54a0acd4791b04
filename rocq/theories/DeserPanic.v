(** Exactly when reading the objects of a contract for the first time panics. *)
From Verif Require Export DeserExact.
Open Scope nat_scope.

Lemma other_tag_never g t : tag_eq_ptype (p_type (FOther g)) t = false.
Proof. destruct t as [p|p]; destruct p; reflexivity. Qed.
Lemma unnamed_other fv : variant_named (p_type fv) = false -> exists g, fv = FOther g.
Proof. destruct fv; cbn; try discriminate. eauto. Qed.

Lemma validate_states_panic states : forall idxs ts k,
  length idxs = length ts ->
  (validate_states states k idxs ts = Panic <->
   exists i n, nth_error (map N.to_nat idxs) i = Some n /\
     (nth_error states n = None \/ exists g, nth_error states n = Some (FOther g)) /\
     forall i' t, i' < i -> nth_error ts i' = Some t -> exists n' fv,
       nth_error (map N.to_nat idxs) i' = Some n' /\ nth_error states n' = Some fv /\ tag_eq_ptype (p_type fv) t = true).
Proof.
  induction idxs as [|s idxs IH]; intros [|t ts] k Hl; cbn in Hl; try discriminate; cbn [validate_states map].
  - split; [discriminate|]. intros [i [n [H _]]]. destruct i; discriminate.
  - injection Hl as Hl.
    destruct (nth_error states (N.to_nat s)) as [fv|] eqn:Es.
    2:{ split; auto. intros _. exists 0, (N.to_nat s). split; [reflexivity|]. split; [auto|]. intros i' t' Hi'. lia. }
    destruct (tag_eq_ptype (p_type fv) t) eqn:Et.
    + rewrite (IH ts (S k) Hl). split.
      * intros [i [n [H1 [H2 H3]]]]. exists (S i), n. split; [exact H1|]. split; [exact H2|].
        intros [|i'] t' Hi' Ht'.
        -- cbn in Ht'. injection Ht' as <-. exists (N.to_nat s), fv. auto.
        -- cbn in Ht'. destruct (H3 i' t') as [n' [fv' H]]; [lia|auto|]. exists n', fv'. auto.
      * intros [[|i] [n [H1 [H2 H3]]]].
        -- cbn in H1. injection H1 as <-. rewrite Es in H2. destruct H2 as [H2|[g H2]]; [discriminate|].
           injection H2 as ->. rewrite other_tag_never in Et. discriminate.
        -- exists i, n. split; [exact H1|]. split; [exact H2|]. intros i' t' Hi' Ht'.
           apply (H3 (S i') t'); [lia|auto].
    + destruct (variant_named (p_type fv)) eqn:En.
      * split; [discriminate|]. intros [[|i] [n [H1 [H2 H3]]]]; exfalso.
        -- cbn in H1. injection H1 as <-. rewrite Es in H2. destruct H2 as [H2|[g H2]]; [discriminate|].
           injection H2 as ->. discriminate.
        -- destruct (H3 0 t) as [n' [fv' [K1 [K2 K3]]]]; [lia|auto|]. cbn in K1. injection K1 as <-. congruence.
      * split; auto. intros _. exists 0, (N.to_nat s). split; [reflexivity|]. split.
        -- right. destruct (unnamed_other _ En) as [g ->]. eauto.
        -- intros i' t' Hi'. lia.
Qed.

(** The tags of fields [< m] are right. *)
Definition tags_ok (fb : fb_baseline) (c : contract_inst) (j m : nat) : Prop :=
  forall i t, i < m -> nth_error (ct_states (ci_ty c)) i = Some t ->
    exists fv, buf_field fb j i = Some fv /\ tag_eq_ptype (p_type fv) t = true.

Lemma validate_obj_panic fb k cs d s fs fc c j idx :
  dbinv fb k cs d s fs fc -> In c cs -> find_serialized_contract fb (ci_ty c) = Ok idx ->
  buf_contract fb j = Some idx ->
  (validate_obj d c j = Panic <->
   length (buf_indices fb j) = length (ct_states (ci_ty c)) /\ fb_states fb <> None /\
   exists i, i < length (buf_indices fb j) /\
     (buf_field fb j i = None \/ exists g, buf_field fb j i = Some (FOther g)) /\ tags_ok fb c j i).
Proof.
  intros Hb Hc Hf Hj. unfold validate_obj. rewrite (db_fb _ _ _ _ _ _ _ Hb).
  unfold tags_ok, buf_field, buf_contract, buf_indices, buf_object, buf_state in *.
  destruct (fb_objects fb) as [objs|]; [|discriminate].
  destruct (nth_error objs j) as [o|]; [|discriminate].
  rewrite (find_contract_right _ _ _ _ _ _ _ _ _ Hb Hc Hf).
  destruct (fo_contract o) as [found|]; [|discriminate]. cbn in Hj. injection Hj as Hj.
  rewrite <- Hj, Nat.eqb_refl. cbn [negb].
  destruct (fo_states o) as [l|].
  - destruct (Nat.eqb_spec (length l) (length (ct_states (ci_ty c)))) as [El|El]; cbn [negb].
    2:{ split; [discriminate|]. rewrite map_length. intros [H _]. contradiction. }
    destruct (fb_states fb) as [states|].
    2:{ split; [discriminate|]. intros [_ [H _]]. congruence. }
    assert (Hm : (match validate_states states 0 l (ct_states (ci_ty c)) with Ok _ => Ok o | Err e => Err e | Panic => Panic end) = @Panic fb_object
       <-> validate_states states 0 l (ct_states (ci_ty c)) = Panic).
    { destruct (validate_states states 0 l (ct_states (ci_ty c))); split; try discriminate; auto. }
    rewrite Hm, (validate_states_panic states l (ct_states (ci_ty c)) 0 El). split.
    + intros [i [n [H1 [H2 H3]]]]. split; [rewrite map_length; auto|]. split; [discriminate|].
      exists i. split; [eapply nth_error_lt; eauto|]. rewrite H1. split; auto.
      intros i' t Hi' Ht. destruct (H3 i' t Hi' Ht) as [n' [fv [K1 [K2 K3]]]]. rewrite K1. eauto.
    + intros [_ [_ [i [H1 [H2 H3]]]]].
      destruct (nth_error (map N.to_nat l) i) as [n|] eqn:En. 2:{ apply nth_error_None in En. lia. }
      exists i, n. split; auto. split; auto. intros i' t Hi' Ht. destruct (H3 i' t Hi' Ht) as [fv [K1 K2]].
      destruct (nth_error (map N.to_nat l) i') as [n'|]; [|discriminate]. eauto.
  - destruct (Nat.eqb_spec 0 (length (ct_states (ci_ty c)))) as [El|El]; cbn [negb].
    + split; [discriminate|]. intros [_ [_ [i [H _]]]]. cbn in H. lia.
    + split; [discriminate|]. cbn. intros [H _]. contradiction.
Qed.

(** Nothing stops the decoding before field [m]: contract references are
    registered, object references not tracked yet. *)
Lemma build_props_panic fb d : d_fb d = fb -> forall l refs,
  (forall i id n, nth_error l i = Some (id, n) ->
     exists fv, buf_state fb (N.to_nat n) = Some fv /\ tag_eq_ptype (p_type fv) (pid_type id) = true) ->
  (fst (build_props d refs l) = Panic <->
   exists m id n, nth_error l m = Some (id, n) /\ buf_state fb (N.to_nat n) = Some (FFbString None) /\
     forall i id' n', i < m -> nth_error l i = Some (id', n') ->
       (forall ci, buf_state fb (N.to_nat n') = Some (FContractDataHandle ci) ->
          bm_left Nat.eqb (N.to_nat ci) (d_contracts d) <> None) /\
       (forall oi, buf_state fb (N.to_nat n') = Some (FObjectHandle oi) ->
          ~ In (N.to_nat n') (map fst refs) /\
          forall i2 id2 n2, i2 < i -> nth_error l i2 = Some (id2, n2) -> N.to_nat n2 <> N.to_nat n')).
Proof.
  intros Hfb. induction l as [|[id n] l IH]; intros refs Hty; cbn -[existsb].
  { split; [discriminate|]. intros [[|m] [id [n [H _]]]]; discriminate. }
  destruct (Hty 0 id n eq_refl) as [fv [Hfv Ht]].
  assert (Hty' : forall i id n, nth_error l i = Some (id, n) ->
     exists fv, buf_state fb (N.to_nat n) = Some fv /\ tag_eq_ptype (p_type fv) (pid_type id) = true).
  { intros i id' n' Hi. apply (Hty (S i)). auto. }
  pose proof Hfv as Hfv'. unfold buf_state in Hfv'. rewrite Hfb.
  destruct (fb_states fb) as [states|] eqn:Efs; [|discriminate]. rewrite Hfv'.
  destruct (decode (d_contracts d) fv) as [[p|oi]|e|] eqn:Ed.
  - (* a value *)
    specialize (IH refs Hty').
    assert (Eq : fst (match build_props d refs l with
                      | (Ok (ps, ns), refs') => (Ok (p :: ps, ns), refs') | r => r end) = Panic <->
                 fst (build_props d refs l) = Panic).
    { destruct (build_props d refs l) as [[[ps ns]|e|] refs']; cbn; split; try discriminate; auto. }
    rewrite Eq, IH. clear Eq IH. split.
    + intros [m [id0 [n0 [H1 [H2 H3]]]]]. exists (S m), id0, n0. split; [exact H1|]. split; [exact H2|].
      intros [|i] id' n' Hi Hn.
      * cbn in Hn. injection Hn as <- <-. rewrite Hfv. split.
        -- intros ci E. injection E as ->. cbn in Ed.
           destruct (bm_left Nat.eqb (N.to_nat ci) (d_contracts d)); congruence.
        -- intros oi E. injection E as ->. discriminate.
      * cbn in Hn. destruct (H3 i id' n') as [K1 K2]; [lia|auto|]. split; auto. intros oi Hoi.
        destruct (K2 _ Hoi) as [L1 L2]. split; auto. intros [|i2] id2 n2 Hi2 Hn2.
        -- cbn in Hn2. injection Hn2 as <- <-. intros E. rewrite E, Hoi in Hfv. injection Hfv as <-. discriminate.
        -- cbn in Hn2. apply (L2 i2 id2 n2); [lia|auto].
    + intros [[|m] [id0 [n0 [H1 [H2 H3]]]]].
      * cbn in H1. injection H1 as <- <-. rewrite H2 in Hfv. injection Hfv as <-. discriminate.
      * exists m, id0, n0. split; [exact H1|]. split; [exact H2|]. intros i id' n' Hi Hn.
        destruct (H3 (S i) id' n') as [K1 K2]; [lia|auto|]. split; auto. intros oi Hoi.
        destruct (K2 _ Hoi) as [L1 L2]. split; auto. intros i2 id2 n2 Hi2 Hn2.
        apply (L2 (S i2) id2 n2); [lia|auto].
  - (* a reference *)
    pose proof (decode_ref_type _ _ _ _ Ht Ed) as Hpt.
    destruct (decode_ref _ _ _ Ed) as [jj [Ejj ->]]. subst fv.
    destruct (existsb (fun p => Nat.eqb (fst p) (N.to_nat n)) refs) eqn:Eex.
    + cbn [fst]. split; [discriminate|]. intros [[|m] [id0 [n0 [H1 [H2 H3]]]]]; exfalso.
      * cbn in H1. injection H1 as <- <-. congruence.
      * destruct (H3 0 id n) as [_ K]; [lia|auto|]. destruct (K _ Hfv) as [L _]. apply L. apply refs_in_keys. auto.
    + rewrite Hpt. cbn [ptype_eqb prim_eqb negb].
      assert (Hnin : ~ In (N.to_nat n) (map fst refs)).
      { intros Hin. apply refs_in_keys in Hin. congruence. }
      set (refs1 := refs ++ [(N.to_nat n, N.to_nat jj)]) in *.
      assert (Hr1 : forall x, In x (map fst refs1) <-> In x (map fst refs) \/ x = N.to_nat n).
      { intros x. unfold refs1. rewrite map_app, in_app_iff. cbn. split; intros [H|H]; auto.
        destruct H as [H|[]]; auto. }
      specialize (IH refs1 Hty').
      assert (Eq : fst (match build_props d refs1 l with
                      | (Ok (ps, ns), refs') => (Ok (PPrim (VObjectHandle (d_null_obj d)) :: ps, (id, N.to_nat n) :: ns), refs')
                      | r => r end) = Panic <->
                 fst (build_props d refs1 l) = Panic).
      { destruct (build_props d refs1 l) as [[[ps ns]|e|] refs']; cbn; split; try discriminate; auto. }
      rewrite Eq, IH. clear Eq IH. split.
      * intros [m [id0 [n0 [H1 [H2 H3]]]]]. exists (S m), id0, n0. split; [exact H1|]. split; [exact H2|].
        intros [|i] id' n' Hi Hn.
        -- cbn in Hn. injection Hn as <- <-. split; [congruence|]. intros oi _. split; auto. intros i2 id2 n2 Hi2. lia.
        -- cbn in Hn. destruct (H3 i id' n') as [K1 K2]; [lia|auto|]. split; auto. intros oi Hoi.
           destruct (K2 _ Hoi) as [L1 L2]. rewrite Hr1 in L1. split; [tauto|]. intros [|i2] id2 n2 Hi2 Hn2.
           ++ cbn in Hn2. injection Hn2 as <- <-. intros E. apply L1. auto.
           ++ cbn in Hn2. apply (L2 i2 id2 n2); [lia|auto].
      * intros [[|m] [id0 [n0 [H1 [H2 H3]]]]].
        -- cbn in H1. injection H1 as <- <-. congruence.
        -- exists m, id0, n0. split; [exact H1|]. split; [exact H2|]. intros i id' n' Hi Hn.
           destruct (H3 (S i) id' n') as [K1 K2]; [lia|auto|]. split; auto. intros oi Hoi.
           destruct (K2 _ Hoi) as [L1 L2]. rewrite Hr1. split.
           ++ intros [H|H]; auto. apply (L2 0 id n); auto. lia.
           ++ intros i2 id2 n2 Hi2 Hn2. apply (L2 (S i2) id2 n2); [lia|auto].
  - (* an unregistered contract *)
    cbn [fst]. split; [discriminate|]. intros [[|m] [id0 [n0 [H1 [H2 H3]]]]]; exfalso.
    + cbn in H1. injection H1 as <- <-. rewrite H2 in Hfv. injection Hfv as <-. discriminate.
    + destruct (H3 0 id n) as [K _]; [lia|auto|].
      destruct fv as [| | | | | | | | | | |os| |ci| |]; cbn in Ed; try discriminate.
      * destruct os; discriminate.
      * apply (K _ Hfv). destruct (bm_left Nat.eqb (N.to_nat ci) (d_contracts d)); [discriminate|auto].
  - (* a panic *)
    cbn [fst]. split; auto. intros _. exists 0, id, n. split; auto. split.
    + rewrite Hfv. destruct fv as [| | | | | | | | | | |os| |ci| |]; cbn in Ed; try discriminate.
      * destruct os; [discriminate|auto].
      * destruct (bm_left Nat.eqb (N.to_nat ci) (d_contracts d)); discriminate.
    + intros i id' n' Hi. lia.
Qed.

(** Reading object [j] panics, when [keys] are the states of the references
    tracked before. *)
Definition panics_on (fb : fb_baseline) (cs : list contract_inst) (keys : list nat) (c : contract_inst) (j : nat) : Prop :=
  length (buf_indices fb j) = length (ct_states (ci_ty c)) /\
  ((fb_states fb <> None /\ exists i, i < length (buf_indices fb j) /\
      (buf_field fb j i = None \/ exists g, buf_field fb j i = Some (FOther g)) /\ tags_ok fb c j i) \/
   (tags_ok fb c j (length (ct_states (ci_ty c))) /\
    exists m, buf_field fb j m = Some (FFbString None) /\
      forall i n, i < m -> nth_error (buf_indices fb j) i = Some n ->
        (forall ci, buf_state fb n = Some (FContractDataHandle ci) ->
           exists c', In c' cs /\ find_serialized_contract fb (ci_ty c') = Ok (N.to_nat ci)) /\
        (forall oi, buf_state fb n = Some (FObjectHandle oi) ->
           ~ In n keys /\ forall i2, i2 < i -> nth_error (buf_indices fb j) i2 <> Some n))).

Lemma one_object_panic fb k cs d s fs fc c idx j :
  dinv fb k cs d s fs fc -> In c cs -> find_serialized_contract fb (ci_ty c) = Ok idx ->
  buf_contract fb j = Some idx -> (forall oh, ~ In (oh, j) (ds_objects d)) ->
  ((validate_obj (ds_b d) c j = Panic \/
    exists o d', validate_obj (ds_b d) c j = Ok o /\ deserialize_obj d c j o = (Panic, d')) <->
   panics_on fb cs (map fst (ds_refs d)) c j).
Proof.
  intros Hd Hc Hf Hj Hnm. pose proof (di_b _ _ _ _ _ _ _ Hd) as Hb.
  pose proof (validate_obj_panic _ _ _ _ _ _ _ _ _ _ Hb Hc Hf Hj) as HV.
  pose proof (validate_obj_cases _ _ _ _ _ _ _ _ _ _ Hb Hc Hf Hj) as HC.
  destruct (validate_obj (ds_b d) c j) as [o|e|] eqn:Ev.
  - (* validated *)
    destruct (validate_obj_ok _ _ _ _ _ _ _ _ _ _ Hb Hc Ev) as [Hbo [[cidx [Hfind Hbc]] [Hlen Hty]]].
    pose proof (obj_idxs_buf _ _ _ Hbo) as Hidx.
    assert (Hlen' : length (obj_idxs o) = length (ct_states (ci_ty c))).
    { rewrite Hidx, map_length in Hlen. auto. }
    set (l := combine (state_ids (ci_ty c) (ci_handle c)) (obj_idxs o)).
    assert (Hl : forall i id n, nth_error l i = Some (id, n) -> exists t, nth_error (ct_states (ci_ty c)) i = Some t /\
              id = mkPid t i (ci_handle c) /\ nth_error (buf_indices fb j) i = Some (N.to_nat n)).
    { intros i id n Hi. unfold l in Hi. rewrite nth_error_combine, state_ids_nth in Hi.
      destruct (nth_error (ct_states (ci_ty c)) i) as [t|]; cbn in Hi; [|discriminate].
      destruct (nth_error (obj_idxs o) i) as [n'|] eqn:En; [|discriminate]. injection Hi as <- <-.
      exists t. split; auto. split; auto. rewrite Hidx, nth_error_map, En. reflexivity. }
    assert (Hl' : forall i n, nth_error (buf_indices fb j) i = Some n -> exists id n0, n = N.to_nat n0 /\ nth_error l i = Some (id, n0)).
    { intros i n Hn. rewrite Hidx, nth_error_map in Hn. destruct (nth_error (obj_idxs o) i) as [n0|] eqn:En; [|discriminate].
      injection Hn as <-. pose proof (nth_error_lt _ _ _ En) as Hlt. rewrite Hlen' in Hlt.
      destruct (nth_error (ct_states (ci_ty c)) i) as [t|] eqn:Et. 2:{ apply nth_error_None in Et. lia. }
      exists (mkPid t i (ci_handle c)), n0. split; auto. unfold l. rewrite nth_error_combine, state_ids_nth, Et, En. reflexivity. }
    assert (Htag : forall i id n, nth_error l i = Some (id, n) ->
       exists fv, buf_state fb (N.to_nat n) = Some fv /\ tag_eq_ptype (p_type fv) (pid_type id) = true).
    { intros i id n Hi. destruct (Hl _ _ _ Hi) as [t [H1 [-> H3]]]. destruct (Hty _ _ H1) as [n' [fv [K1 [K2 K3]]]].
      exists fv. assert (n' = N.to_nat n) by congruence. subst n'. auto. }
    pose proof (build_props_panic fb (ds_b d) (db_fb _ _ _ _ _ _ _ Hb) l (ds_refs d) Htag) as HB.
    destruct (deserialize_obj d c j o) as [r d'] eqn:Ed.
    assert (Hbp : r = Panic <-> fst (build_props (ds_b d) (ds_refs d) l) = Panic).
    { pose proof (deserialize_obj_cases _ _ _ _ _ _ _ _ _ _ _ _ Hd Hc Ev Ed) as Hcase.
      revert Ed. unfold deserialize_obj. fold (obj_idxs o).
      assert (Hsane : (match fo_states o with Some l => negb (Nat.eqb (length l) (length (ct_states (ci_ty c)))) | None => false end) = false).
      { unfold obj_idxs in Hlen'. destruct (fo_states o); auto. rewrite Hlen', Nat.eqb_refl. reflexivity. }
      rewrite Hsane. fold l.
      destruct (build_props (ds_b d) (ds_refs d) l) as [[[ps ns]|e|] refs] eqn:Eb; cbn [fst].
      - intros _. split; [|discriminate]. intros ->. exfalso. destruct Hcase as [[n [H1 H2]]|[oh H]]; [|apply (Hnm _ H)].
        destruct (build_props_ok_inv fb (ds_b d) (db_fb _ _ _ _ _ _ _ Hb) _ _ _ _ _ Eb) as [_ [_ [H3 _]]].
        apply In_nth_error in H1. destruct H1 as [i H1]. destruct (Hl' _ _ H1) as [id [n0 [-> K]]].
        apply (H3 id n0); auto. eapply nth_error_In; eauto.
      - intros E. injection E as <- <-. split; discriminate.
      - intros E. injection E as <- <-. tauto. }
    assert (Htk : tags_ok fb c j (length (ct_states (ci_ty c)))).
    { intros i t _ Ht. destruct (Hty _ _ Ht) as [n [fv [G1 [G2 G3]]]]. exists fv. unfold buf_field. rewrite G1. auto. }
    split.
    + intros [H|[o' [d2 [H1 H2]]]]; [discriminate|]. injection H1 as <-. rewrite H2 in Ed. injection Ed as <- <-.
      destruct (proj1 HB (proj1 Hbp eq_refl)) as [m [id [n [B1 [B2 B3]]]]].
      split; auto. right. split; auto. exists m. destruct (Hl _ _ _ B1) as [t [_ [_ B4]]]. split.
      { unfold buf_field. rewrite B4. auto. }
      intros i n' Hi Hn'. destruct (Hl' _ _ Hn') as [id' [n0 [-> K]]]. destruct (B3 _ _ _ Hi K) as [C1 C2]. split.
      * intros ci Hci. specialize (C1 _ Hci).
        destruct (bm_left Nat.eqb (N.to_nat ci) (d_contracts (ds_b d))) as [h|] eqn:Eh; [|congruence].
        apply (bm_left_in Nat.eqb Nat.eqb_spec) in Eh. apply (db_reg _ _ _ _ _ _ _ Hb) in Eh.
        destruct Eh as [c' [A1 [A2 A3]]]. eauto.
      * intros oi Hoi. destruct (C2 _ Hoi) as [D1 D2]. split; auto. intros i2 Hi2 Hn2.
        destruct (Hl' _ _ Hn2) as [id2 [n2 [E2 K2]]]. apply (D2 _ _ _ Hi2 K2). auto.
    + intros [_ [[H1 H2]|[_ [m [H1 H2]]]]].
      * exfalso. destruct HV as [_ HV]. discriminate HV. auto.
      * right. exists o, d'. split; auto. rewrite Ed. f_equal. apply Hbp, HB.
        unfold buf_field in H1. destruct (nth_error (buf_indices fb j) m) as [n|] eqn:En; [|discriminate].
        destruct (Hl' _ _ En) as [id [n0 [-> K]]]. exists m, id, n0. split; auto. split; auto.
        intros i id' n' Hi Hn'. destruct (Hl _ _ _ Hn') as [t [_ [_ K3]]]. destruct (H2 _ _ Hi K3) as [C1 C2]. split.
        -- intros ci Hci. destruct (C1 _ Hci) as [c' [A1 A2]].
           intros Hno. rewrite (bm_left_none Nat.eqb Nat.eqb_spec) in Hno. apply (Hno (ci_handle c')).
           apply (db_reg _ _ _ _ _ _ _ Hb). eauto.
        -- intros oi Hoi. destruct (C2 _ Hoi) as [D1 D2]. split; auto. intros i2 id2 n2 Hi2 Hn2 E.
           destruct (Hl _ _ _ Hn2) as [t2 [_ [_ K2]]]. apply (D2 _ Hi2). congruence.
  - (* refused *)
    split; [intros [H|[o [d' [H _]]]]; discriminate|].
    intros [H0 [[H1 H2]|[H1 [m [H2 H3]]]]]; exfalso.
    + destruct HV as [_ HV]. discriminate HV. auto.
    + destruct HC as [HC|[HC|[i [n [t [fv [K1 [K2 [K3 K4]]]]]]]]]; auto.
      * unfold buf_field, buf_state in H2. rewrite HC in H2. destruct (nth_error (buf_indices fb j) m); discriminate.
      * destruct (H1 i t) as [fv' [L1 L2]]; auto. { eapply nth_error_lt; eauto. }
        unfold buf_field in L1. rewrite K1, K2 in L1. congruence.
  - split; auto. intros _. destruct (proj1 HV eq_refl) as [A1 [A2 A3]]. split; auto.
Qed.

(** The loop. *)
Lemma each_panic fb k cs c idx : forall l d s fs fc r d',
  dinv fb k cs d s fs fc -> In c cs -> find_serialized_contract fb (ci_ty c) = Ok idx ->
  (forall j, In j l -> buf_contract fb j = Some idx) -> NoDup l ->
  (forall j oh, In j l -> ~ In (oh, j) (ds_objects d)) ->
  NoDup (map fst (ds_refs d)) -> deserialize_each d c l = (r, d') ->
  (r = Panic <-> exists l1 j l2, l = l1 ++ j :: l2 /\
     (forall j', In j' l1 -> well_formed fb cs c j') /\
     NoDup (map fst (ds_refs d) ++ flat_map (ref_states fb) l1) /\
     panics_on fb cs (map fst (ds_refs d) ++ flat_map (ref_states fb) l1) c j).
Proof.
  induction l as [|j l IH]; intros d s fs fc r d' Hd Hc Hf Hl Hnd Hnm Hk E; cbn [deserialize_each] in *.
  - injection E as <- <-. split; [discriminate|]. intros [[|] [j [l2 [H _]]]]; discriminate.
  - apply NoDup_cons_iff in Hnd. destruct Hnd as [Hnj Hnd].
    pose proof (one_object_panic _ _ _ _ _ _ _ _ _ _ Hd Hc Hf (Hl j (or_introl eq_refl)) (fun oh => Hnm j oh (or_introl eq_refl))) as HP.
    assert (Hwf : forall l1, (forall j', In j' (j :: l1) -> well_formed fb cs c j') ->
        NoDup (map fst (ds_refs d) ++ flat_map (ref_states fb) (j :: l1)) ->
        exists o d1, validate_obj (ds_b d) c j = Ok o /\ deserialize_obj d c j o = (Ok tt, d1)).
    { intros l1 H1 H2. cbn [flat_map] in H2. rewrite !nodup_app_iff in H2. destruct H2 as [_ [[H2 _] H3]].
      apply (one_object_exact _ _ _ _ _ _ _ _ _ _ Hd Hc Hf (Hl j (or_introl eq_refl)) (fun oh => Hnm j oh (or_introl eq_refl))
        (H1 j (or_introl eq_refl)) H2).
      intros n Hn Hin; apply (H3 n Hin); apply in_or_app; auto. }
    assert (Hstop : (forall o d1, validate_obj (ds_b d) c j = Ok o -> deserialize_obj d c j o <> (Ok tt, d1)) ->
       (exists l1 j0 l2, j :: l = l1 ++ j0 :: l2 /\
         (forall j', In j' l1 -> well_formed fb cs c j') /\
         NoDup (map fst (ds_refs d) ++ flat_map (ref_states fb) l1) /\
         panics_on fb cs (map fst (ds_refs d) ++ flat_map (ref_states fb) l1) c j0) <->
       panics_on fb cs (map fst (ds_refs d)) c j).
    { intros Hno. split.
      - intros [[|x l1] [j0 [l2 [H1 [H2 [H3 H4]]]]]]; cbn [app] in H1; injection H1 as <- ->.
        + cbn in H4. rewrite app_nil_r in H4. auto.
        + destruct (Hwf _ H2 H3) as [o [d1 [K1 K2]]]. destruct (Hno _ _ K1 K2).
      - intros H. exists [], j, l. cbn. rewrite app_nil_r. split; auto. split; [intros ? []|]. auto. }
    destruct (validate_obj (ds_b d) c j) as [o|e|] eqn:Ev.
    2:{ injection E as <- <-. rewrite Hstop; [|discriminate]. rewrite <- HP. split; [discriminate|].
        intros [H|[o [d2 [H _]]]]; discriminate. }
    2:{ injection E as <- <-. rewrite Hstop; [|discriminate]. rewrite <- HP. tauto. }
    destruct (deserialize_obj d c j o) as [r1 d1] eqn:Ed.
    destruct (deserialize_obj_spec _ _ _ _ _ _ _ _ _ _ _ _ Hd Hc Ev Ed) as [Hct H].
    destruct r1 as [[]|e|].
    2:{ injection E as <- <-. rewrite Hstop; [|intros o' d2 E1 E2; injection E1 as <-; congruence]. rewrite <- HP.
        split; [discriminate|]. intros [K|[o' [d2 [K1 K2]]]]; [discriminate|]. injection K1 as <-. congruence. }
    2:{ injection E as <- <-. rewrite Hstop; [|intros o' d2 E1 E2; injection E1 as <-; congruence]. rewrite <- HP.
        split; auto. intros _. right. eauto. }
    destruct H as [s1 [fs1 [fc1 [oh [Hd1 Ho]]]]].
    destruct (deserialize_obj_ok_inv _ _ _ _ _ _ _ _ _ _ _ Hd Hc Ev Ed) as [Hw [Hr1 Hn1]].
    rewrite (IH d1 s1 fs1 fc1 r d' Hd1 Hc Hf); auto.
    2:{ intros j' Hj'. apply Hl. right; auto. }
    2:{ intros j' oh' Hj' Hin. rewrite Ho in Hin. apply in_app_or in Hin. destruct Hin as [Hin|[Hin|[]]].
        - apply (Hnm j' oh'); [right; auto|auto].
        - injection Hin as _ <-. auto. }
    rewrite Hr1. split.
    + intros [l1 [j0 [l2 [H1 [H2 [H3 H4]]]]]]. exists (j :: l1), j0, l2. cbn [app flat_map]. rewrite <- app_assoc in H3, H4.
      split; [congruence|]. split; auto. intros j' [<-|Hj']; auto.
    + intros [[|x l1] [j0 [l2 [H1 [H2 [H3 H4]]]]]]; cbn [app flat_map] in *; injection H1 as <- ->.
      * exfalso. rewrite app_nil_r in H4. apply HP in H4. destruct H4 as [H4|[o' [d2 [K1 K2]]]]; [discriminate|].
        injection K1 as <-. congruence.
      * exists l1, j0, l2. rewrite <- app_assoc. split; auto. split; auto. intros j' Hj'. apply H2. right; auto.
Qed.

Lemma first_time_panic fb k cs done d s fs fc c idx r d' :
  dinv fb k cs d s fs fc -> covered fb cs done d -> incl done cs -> In c cs -> ~ In c done ->
  find_serialized_contract fb (ci_ty c) = Ok idx ->
  deserialize_objects d c = (r, d') ->
  (r = Panic <-> exists l1 j l2, objects_of fb idx = l1 ++ j :: l2 /\
     (forall j', In j' l1 -> well_formed fb cs c j') /\
     NoDup (map fst (ds_refs d) ++ flat_map (ref_states fb) l1) /\
     panics_on fb cs (map fst (ds_refs d) ++ flat_map (ref_states fb) l1) c j).
Proof.
  intros Hd Hcov Hincl Hc Hnd Hf E. rewrite (deserialize_objects_each _ _ _ _ _ _ _ _ _ Hd Hc Hf) in E.
  eapply each_panic; eauto.
  - intros j. apply objects_of_in.
  - apply objects_of_nodup.
  - intros j oh Hj Hin. apply objects_of_in in Hj. destruct (cv_made _ _ _ _ Hcov _ _ Hin) as [c' [idx' [H1 [H2 H3]]]].
    assert (idx' = idx) by congruence. subst idx'. apply Hnd.
    rewrite <- (same_contract _ _ _ _ _ _ _ c c' idx (di_b _ _ _ _ _ _ _ Hd) Hc (Hincl _ H1) Hf H2). auto.
  - apply (cv_nodup _ _ _ _ Hcov).
Qed.

(** The objects of a contract are listed in increasing order. *)
Lemma objects_with_idx_split idx : forall l i0 l1 j l2,
  objects_with_contract_idx idx i0 l = l1 ++ j :: l2 ->
  (forall j', In j' l1 -> j' < j) /\ (forall j', In j' l2 -> j < j').
Proof.
  induction l as [|o l IH]; intros i0 l1 j l2; cbn.
  - destruct l1; discriminate.
  - destruct (fo_contract o) as [c|]; [|apply IH].
    destruct (Nat.eqb (N.to_nat c) idx); [|apply IH].
    destruct l1 as [|x l1]; cbn [app]; intros E.
    + injection E as <- E. split; [intros ? []|]. intros j' Hj'. rewrite <- E in Hj'. apply objects_with_idx in Hj'. lia.
    + injection E as <- E. destruct (IH _ _ _ _ E) as [H1 H2]. split; auto. intros j' [<-|Hj']; auto.
      assert (Hin : In j (objects_with_contract_idx idx (S i0) l)) by (rewrite E; apply in_or_app; right; left; auto).
      apply objects_with_idx in Hin. lia.
Qed.
Lemma objects_of_split fb idx l1 j l2 : objects_of fb idx = l1 ++ j :: l2 ->
  (forall j', In j' l1 <-> buf_contract fb j' = Some idx /\ j' < j) /\ buf_contract fb j = Some idx.
Proof.
  intros E. assert (H : (forall j', In j' l1 -> j' < j) /\ (forall j', In j' l2 -> j < j')).
  { unfold objects_of in E. destruct (fb_objects fb) as [l|]; [|destruct l1; discriminate].
    eapply objects_with_idx_split; eauto. }
  destruct H as [H1 H2]. split.
  2:{ apply objects_of_in. rewrite E. apply in_or_app. right; left; auto. }
  intros j'. rewrite <- objects_of_in, E, in_app_iff. cbn. split.
  - intros H. auto.
  - intros [[H|[<-|H]] Hlt]; auto; [lia|]. specialize (H2 _ H). lia.
Qed.
