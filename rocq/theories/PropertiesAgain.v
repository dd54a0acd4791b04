(** C54: a loaded baseline is a baseline like any other; saving and loading can be
    repeated. *)
From Verif Require Import BaseProofs PropertiesTags PropertiesBaseline SerProofs PropertiesSer PropertiesRound.
From Verif Require Import PropertiesRecord DeserHistory Again.
From Verif Require Import WireSerial Wire WireRead WireSchema WireRefine WireMono WireSize WireMany PropertiesWire.
Import Coq.Strings.String.StringSyntax.
Open Scope string_scope.
Open Scope list_scope.
Open Scope nat_scope.

(** ** Specification

    [savable] (Again.v) collects what C25 asks of a selection [l] of a baseline: live
    contracts and their objects, none removed, no vector fields, few enough for the format,
    no references leading out of it, and no channels.  [relisted b cs l]: [l] lists the
    contracts [cs] of [b] with their objects, in any order. *)

(** The tables [fb] are loaded: register the contracts [Cs] with a new deserializer,
    deserialize their objects in some order, finish.  The result is [b'] with the
    contracts [cs']. *)
Definition loaded (fb : fb_baseline) (Cs : list contract_ty) (b' : baseline) (cs' : list contract_inst) : Prop :=
  exists k' d0 d1 ds d2,
    builder_new fb k' = Ok d0 /\ register_all d0 Cs = (Ok cs', d1) /\
    Permutation ds cs' /\ deserialize_all (deser_new d1) ds = (Ok tt, d2) /\
    finishes d2 (Ok b').
(** [b] is saved and loaded again: serialize the selection [l], finish, load its contracts in
    some order. *)
Definition reload (b : baseline) (l : list (contract_inst * list index)) (b' : baseline) (cs' : list contract_inst) : Prop :=
  exists sr ordc ordo fb Cs,
    serialize_all b ser_new l = (Ok tt, sr) /\
    Permutation ordc (hm_cstates sr) /\ Permutation ordo (hm_ostates sr) /\
    ser_finish b sr ordc ordo = Ok (Some fb) /\
    Permutation Cs (map (fun p => ci_ty (fst p)) l) /\ loaded fb Cs b' cs'.
(** The same with a file of at most 10^9 bytes (C52) in between. *)
Definition reload_file (b : baseline) (l : list (contract_inst * list index)) (b' : baseline) (cs' : list contract_inst) : Prop :=
  exists ord bytes fb Cs,
    (forall sr, Permutation (fst (ord sr)) (hm_cstates sr) /\ Permutation (snd (ord sr)) (hm_ostates sr)) /\
    save b l ord = Ok bytes /\ (Z.of_nat (length bytes) <= 1000000000)%Z /\ load bytes = Some (Some fb) /\
    Permutation Cs (map (fun p => ci_ty (fst p)) l) /\ loaded fb Cs b' cs'.

(** [n] times over. *)
Inductive generations (again : baseline -> list (contract_inst * list index) -> baseline -> list contract_inst -> Prop)
    (b : baseline) (l : list (contract_inst * list index))
  : nat -> baseline -> list (contract_inst * list index) -> Prop :=
| gen_original : generations again b l 0 b l
| gen_next n b1 l1 b2 cs2 l2 :
    generations again b l n b1 l1 -> again b1 l1 b2 cs2 -> relisted b2 cs2 l2 -> generations again b l (S n) b2 l2.

(** ** Proofs *)
Lemma copy_of_perm b l b' cs cs' obj :
  (forall c, In c cs <-> In c cs') -> copy_of b l b' cs obj -> copy_of b l b' cs' obj.
Proof.
  intros H.
  assert (E : forall h h', same_contract l cs' h h' <-> same_contract l cs h h').
  { intros h h'. split; intros [c [ord [c' [H1 [H2 H3]]]]]; exists c, ord, c'; split; auto; split; auto; apply H; auto. }
  intros Hc. constructor.
  - intros c ord Hin. destruct (cp_con_from _ _ _ _ _ Hc _ _ Hin) as [h' Hh]. exists h'. apply E. exact Hh.
  - intros h'. rewrite (cp_con_to _ _ _ _ _ Hc). split; intros [h Hh]; exists h; apply E; exact Hh.
  - intros h1 h1' h2 h2' H1 H2. apply E in H1, H2. apply (cp_con_one _ _ _ _ _ Hc _ _ _ _ H1 H2).
  - intros c ord c' H1 H2. apply H in H2. exact (cp_con_same _ _ _ _ _ Hc _ _ _ H1 H2).
  - apply (cp_obj_from _ _ _ _ _ Hc).
  - apply (cp_obj_to _ _ _ _ _ Hc).
  - apply (cp_obj_one _ _ _ _ _ Hc).
  - intros c ord c' o o' H1 H2 H3 H4 H5. apply H in H3.
    destruct (cp_obj_same _ _ _ _ _ Hc _ _ _ _ _ H1 H2 H3 H4 H5) as [ob [G1 [G2 [G3 [G4 G5]]]]].
    exists ob. do 4 (split; [assumption|]). intros i t Ht. destruct (G5 _ _ Ht) as [v [v' [K1 [K2 K3]]]].
    exists v, v'. split; auto. split; auto. eapply corresponds_impl; [| |exact K3]; auto. intros a0 b0. apply E.
Qed.

(** One generation. *)
Lemma reload_spec (Q0 Q : dynprop -> Prop) k b s l b' cs' sr ordc ordo fb Cs :
  hist Q0 k b s -> savable b s l ->
  serialize_all b ser_new l = (Ok tt, sr) ->
  Permutation ordc (hm_cstates sr) -> Permutation ordo (hm_ostates sr) ->
  ser_finish b sr ordc ordo = Ok (Some fb) ->
  Permutation Cs (map (fun p => ci_ty (fst p)) l) -> loaded fb Cs b' cs' ->
  (forall n fv contracts v, buf_state fb n = Some fv -> decode contracts fv = Ok (DVal v) -> Q v) ->
  (forall o, Q (PPrim (VObjectHandle o))) ->
  exists k' s' obj, hist Q k' b' s' /\ (forall h C, rs_con s' h = Some C <-> In (mkCinst C h) cs') /\
    NoDup (map ci_handle cs') /\ Permutation (map ci_ty cs') (map (fun p => ci_ty (fst p)) l) /\
    copy_of b l b' cs' obj.
Proof.
  intros [ops [rs [H1 [H2 [H3 [Es _]]]]]] Hsv G1 G2 G3 G4 G5 [k' [d0 [d1 [ds [d2 [G6 [G7 [G8 [G9 G10]]]]]]]]] HQ HQo.
  rewrite <- Es in Hsv. destruct Hsv as [V1 V2 V3 V4 V5 V6].
  destruct (C25_round_trip_partial _ _ _ _ _ H1 H2 H3 V1 V2 V3 V4 V5 V6) as [sr' [E1 K]].
  assert (sr' = sr) by congruence. subst sr'.
  destruct (K _ _ G2 G3) as [fb' [E2 K2]]. assert (fb' = fb) by congruence. subst fb'.
  destruct (K2 k' Cs G5) as [d0' [cs2 [d1' [E3 [E4 [E5 K3]]]]]].
  assert (d0' = d0) by congruence. subst d0'. rewrite G7 in E4. injection E4 as <- <-.
  destruct (K3 ds G8) as [d2' [E6 K4]]. rewrite G9 in E6. injection E6 as <-.
  destruct (K4 _ G10) as [b2 [obj [E7 [_ Hcp]]]]. injection E7 as <-.
  destruct (register_all_builds fb k' Cs [] d0 cs' d1) as [Hb Ety]; auto. { constructor; auto. }
  cbn [app] in Hb.
  assert (Hd : deserializes fb k' cs' ([] ++ ds) ([] ++ ds) d2).
  { eapply deserialize_all_deserializes; eauto. { constructor; auto. } intros x Hx. eapply Permutation_in; eauto. }
  destruct (finishes_hist Q fb HQ HQo _ _ _ _ _ _ Hd G10) as [s' [Hh Hc]].
  exists k', s', obj. split; auto. split; auto. split; [|split; [rewrite Ety; exact G5|exact Hcp]].
  destruct (builds_inv _ _ _ _ Hb) as [sx [fsx [fcx [Hdb _]]]]. exact (db_nodup _ _ _ _ _ _ _ Hdb).
Qed.

Section Generations.
Variables (again : baseline -> list (contract_inst * list index) -> baseline -> list contract_inst -> Prop)
  (Q : dynprop -> Prop) (Extra : list (contract_inst * list index) -> Prop).
Hypothesis again_ok : forall k b s l b' cs', hist Q k b s -> savable b s l -> Extra l -> again b l b' cs' ->
  exists k' s' obj, hist Q k' b' s' /\ (forall h C, rs_con s' h = Some C <-> In (mkCinst C h) cs') /\
    NoDup (map ci_handle cs') /\ Permutation (map ci_ty cs') (map (fun p => ci_ty (fst p)) l) /\
    copy_of b l b' cs' obj.
Hypothesis X_shape : forall l l', Permutation (map shape l') (map shape l) -> Extra l -> Extra l'.

Definition gen_inv (b : baseline) (l : list (contract_inst * list index)) (n : nat) (b1 : baseline)
    (l1 : list (contract_inst * list index)) : Prop :=
  exists k1 s1, hist Q k1 b1 s1 /\ savable b1 s1 l1 /\ Permutation (map shape l1) (map shape l) /\
    (0 < n -> exists obj, copy_of b l b1 (map fst l1) obj /\
       (forall h C, rs_con s1 h = Some C <-> In (mkCinst C h) (map fst l1)) /\
       NoDup (map ci_handle (map fst l1)) /\
       Permutation (map ci_ty (map fst l1)) (map (fun p => ci_ty (fst p)) l) /\
       relisted b1 (map fst l1) l1).

Lemma generations_inv k b s l n b1 l1 :
  hist Q k b s -> savable b s l -> Extra l -> generations again b l n b1 l1 -> gen_inv b l n b1 l1.
Proof.
  intros Hh Hsv HX. induction 1 as [|n b1 l1 b2 cs2 l2 Hg IH Hre Hrl].
  - exists k, s. split; auto. split; auto. split; [apply Permutation_refl|]. lia.
  - destruct IH as [k1 [s1 [Hh1 [Hsv1 [Hsh1 Hn]]]]].
    destruct (again_ok _ _ _ _ _ _ Hh1 Hsv1 (X_shape _ _ Hsh1 HX) Hre) as [k2 [s2 [obj2 [Hh2 [Hc2 [Hnd2 [Hty2 Hcp2]]]]]]].
    destruct (hist_rrel _ _ _ _ Hh) as [fs [fc Hr]]. destruct (hist_rrel _ _ _ _ Hh1) as [fs1 [fc1 Hr1]].
    destruct (hist_rrel _ _ _ _ Hh2) as [fs2 [fc2 Hr2]].
    assert (Hin : forall c, In c cs2 <-> In c (map fst l2)).
    { intros c. split; apply Permutation_in; [apply Permutation_sym|]; apply Hrl. }
    assert (Hnd2' : NoDup (map ci_handle (map fst l2))).
    { eapply Permutation_NoDup; [apply Permutation_map, Permutation_sym, Hrl|auto]. }
    assert (Hty2' : Permutation (map ci_ty (map fst l2)) (map (fun p => ci_ty (fst p)) l1)).
    { eapply Permutation_trans; [apply Permutation_map, Hrl|auto]. }
    assert (Htl : Permutation (map (fun p => ci_ty (fst p)) l1) (map (fun p => ci_ty (fst p)) l)).
    { assert (X : forall m : list (contract_inst * list index), map (fun p => ci_ty (fst p)) m = map fst (map shape m))
        by (intros; rewrite map_map; reflexivity).
      rewrite !X. apply Permutation_map. exact Hsh1. }
    exists k2, s2. split; auto. split.
    { apply (copy_savable b1 s1 fs1 fc1 l1 b2 s2 fs2 fc2 cs2 obj2 l2); auto. }
    split.
    { eapply Permutation_trans; [|exact Hsh1].
      apply (shapes_permute b1 s1 fs1 fc1 l1 b2 s2 fs2 fc2 cs2 obj2 l2); auto. }
    intros _.
    assert (Hrest : (forall h C, rs_con s2 h = Some C <-> In (mkCinst C h) (map fst l2)) /\
       NoDup (map ci_handle (map fst l2)) /\
       Permutation (map ci_ty (map fst l2)) (map (fun p => ci_ty (fst p)) l) /\ relisted b2 (map fst l2) l2).
    { split; [intros h C; rewrite Hc2; apply Hin|]. split; auto. split.
      - eapply Permutation_trans; [exact Hty2'|exact Htl].
      - split; [apply Permutation_refl|apply Hrl]. }
    assert (Hcopy : exists obj, copy_of b l b2 (map fst l2) obj); [|destruct Hcopy as [obj Hcopy]; exists obj; auto].
    destruct n as [|n].
    + inversion Hg; subst. exists obj2. eapply copy_of_perm; [exact Hin|exact Hcp2].
    + destruct Hn as [obj [Hcp [Hc [Hnd [Hty Hrl1]]]]]; [lia|].
      exists (via obj obj2). eapply copy_of_perm; [exact Hin|].
      apply (copy_via b l b1 (map fst l1) obj l1); auto.
      rewrite map_map. exact Hty2.
Qed.
End Generations.

Definition any_value (v : dynprop) : Prop := True.
Lemma reload_ok k b s l b' cs' : hist any_value k b s -> savable b s l -> True -> reload b l b' cs' ->
  exists k' s' obj, hist any_value k' b' s' /\ (forall h C, rs_con s' h = Some C <-> In (mkCinst C h) cs') /\
    NoDup (map ci_handle cs') /\ Permutation (map ci_ty cs') (map (fun p => ci_ty (fst p)) l) /\
    copy_of b l b' cs' obj.
Proof.
  intros Hh Hsv _ [sr [ordc [ordo [fb [Cs [G1 [G2 [G3 [G4 [G5 G6]]]]]]]]]].
  eapply reload_spec; eauto; intros; exact I.
Qed.
Lemma any_hist k b ops rs : crun (baseline_new k) ops = (rs, b) -> existsb is_panic rs = false ->
  all_disciplined rs_empty ops rs -> hist any_value k b (rfinal rs_empty ops rs).
Proof. intros H1 H2 H3. exists ops, rs. do 4 (split; [assumption || reflexivity|]). intros t h v _. exact I. Qed.

(** *** Files *)
Lemma held_typed fb n fv contracts v :
  held fb -> buf_state fb n = Some fv -> decode contracts fv = Ok (DVal v) -> typed v.
Proof.
  intros [_ [H _]] Hn Hd. unfold buf_state in Hn. destruct (fb_states fb) as [l|]; [|discriminate].
  cbn [if_any] in H. rewrite Forall_forall in H. specialize (H fv (nth_error_In _ _ Hn)).
  destruct fv; cbn [decode] in Hd; try discriminate Hd;
    try (injection Hd as <-; exact H); try (injection Hd as <-; exact I).
  - match type of Hd with match ?s with _ => _ end = _ => destruct s; [|discriminate Hd] end. injection Hd as <-. exact H.
  - destruct (bm_left _ _ _); [|discriminate Hd]. injection Hd as <-. exact I.
Qed.
Lemma sum_perm l l' : Permutation l l' -> sum l = sum l'.
Proof. induction 1; unfold sum in *; cbn [fold_right]; lia. Qed.
Definition file_sized (l : list (contract_inst * list index)) : Prop :=
  (saved_tables l <= 1000000)%Z /\ Forall (fun p => writable (ci_ty (fst p))) l.
Lemma file_sized_shape l l' : Permutation (map shape l') (map shape l) -> file_sized l -> file_sized l'.
Proof.
  intros P [H1 H2]. split.
  - assert (E : forall m, saved_tables m =
      (1 + sum (map (fun q : contract_ty * nat => (3 + Z.of_nat (snd q) * (2 + 3 * Z.of_nat (length (ct_states (fst q)))))%Z) (map shape m)))%Z)
      by (intros m; rewrite map_map; reflexivity).
    rewrite E in *. rewrite (sum_perm _ _ (Permutation_map _ P)). exact H1.
  - rewrite Forall_forall in *. intros p Hp.
    assert (Hs : In (shape p) (map shape l)) by (eapply Permutation_in; [exact P|apply in_map; auto]).
    apply in_map_iff in Hs. destruct Hs as [q [E Hq]]. unfold shape in E. injection E as E _.
    rewrite <- E. apply H2. exact Hq.
Qed.
Lemma reload_file_ok k b s l b' cs' : hist typed k b s -> savable b s l -> file_sized l -> reload_file b l b' cs' ->
  exists k' s' obj, hist typed k' b' s' /\ (forall h C, rs_con s' h = Some C <-> In (mkCinst C h) cs') /\
    NoDup (map ci_handle cs') /\ Permutation (map ci_ty cs') (map (fun p => ci_ty (fst p)) l) /\
    copy_of b l b' cs' obj.
Proof.
  intros Hh Hsv [Hsz Hw] [ord [bytes [fb [Cs [G1 [G2 [G3 [G4 [G5 G6]]]]]]]]].
  pose proof Hh as [ops [rs [H1 [H2 [H3 [Es HQ]]]]]]. pose proof Hsv as V. rewrite <- Es in V.
  destruct V as [V1 V2 V3 V4 V5 V6].
  destruct (C33_buffer_holds_exactly_the_selection _ _ _ _ _ H1 H2 H3 V1 V2 V3 V4) as [sr [E1 K]].
  destruct (G1 sr) as [P1 P2]. destruct (K _ _ P1 P2) as [K1 _]. destruct (K1 V5) as [fb' [E2 _]].
  assert (Hrv : rust_values b l) by (split; auto).
  pose proof (C52_saved_files_are_accepted _ _ _ _ _ _ Hrv E1 E2 G2 G3 Hsz) as E3.
  assert (fb' = fb) by congruence. subst fb'.
  destruct (C52_saved_bytes_are_the_tables _ _ _ _ _ Hrv E1 E2) as [bytes' [E4 [Hfile _]]].
  assert (bytes' = bytes) by congruence. subst bytes'.
  destruct (C51_accepted_files_hold_proper_values _ _ Hfile G4) as [_ Hheld].
  eapply reload_spec; eauto.
  - intros n fv contracts v. apply held_typed. exact Hheld.
  - intros o. exact I.
Qed.

(** ** C54 *)

(** What [finish] returns is what some disciplined history of ordinary calls on a new
    baseline leaves, with exactly the registered contracts: everything proved of such
    histories holds of a loaded baseline, and of every baseline loaded from what was saved
    of it. *)
Theorem C54_loaded_baselines_are_ordinary :
  forall fb k cs tried done d b',
    deserializes fb k cs tried done d -> finishes d (Ok b') ->
    exists ops rs, crun (baseline_new k) ops = (rs, b') /\ existsb is_panic rs = false /\
      all_disciplined rs_empty ops rs /\
      forall h C, rs_con (rfinal rs_empty ops rs) h = Some C <-> In (mkCinst C h) cs.
Proof.
  intros fb k cs tried done d b' Hd Hf.
  destruct (finishes_hist any_value fb ltac:(intros; exact I) ltac:(intros; exact I) _ _ _ _ _ _ Hd Hf) as [s [[ops [rs [H1 [H2 [H3 [<- _]]]]]] Hc]]. exists ops, rs. auto.
Qed.
Print Assumptions C54_loaded_baselines_are_ordinary.

(** Seen by a client: a loaded baseline is a map of records (C07) that holds the loaded
    contracts and objects, and it answers every further call as that map does. *)
Theorem C54_loaded_baselines_go_on_as_records :
  forall fb k cs tried done d b',
    deserializes fb k cs tried done d -> finishes d (Ok b') ->
    exists s,
      (forall h C, rs_con s h = Some C <-> In (mkCinst C h) cs) /\
      (forall o, live_obj s o <> None <-> obj_at b' o <> None) /\
      (forall o ro, live_obj s o = Some ro -> exists c, In c cs /\ ro_contract ro = ci_handle c /\
         forall i, nth_error (ro_vals ro) i = field_of b' c i o) /\
      forall ops, let answers := fst (crun b' ops) in
        all_disciplined s ops answers -> all_allowed s ops answers.
Proof.
  intros fb k cs tried done d b' Hd Hf.
  destruct (finishes_hist any_value fb ltac:(intros; exact I) ltac:(intros; exact I) _ _ _ _ _ _ Hd Hf) as [s [Hh Hc]].
  destruct (hist_rrel _ _ _ _ Hh) as [fs [fc Hr]]. exists s. split; auto. split; [|split].
  - intros o. unfold obj_at. split.
    + intros H. destruct (live_obj s o) as [ro|] eqn:E; [|congruence].
      destruct (rr_live _ _ _ _ Hr _ _ E) as [Hg _]. congruence.
    + intros H E. apply H. apply (rr_dead _ _ _ _ Hr). exact E.
  - intros o ro Hl. destruct (rr_live _ _ _ _ Hr _ _ Hl) as [_ [C [Hco _]]].
    exists (mkCinst C (ro_contract ro)). split; [apply Hc; auto|]. split; auto.
    intros i. symmetry. eapply rec_field; eauto.
  - intros ops. cbn. eapply records_refined. exact Hr.
Qed.
Print Assumptions C54_loaded_baselines_go_on_as_records.

(** However often a selection was saved and loaded, the result is a copy of the original,
    as faithful as after the first time, and can be saved and loaded again. *)
Theorem C54_any_number_of_saves_and_loads :
  forall k ops rs b l,
    crun (baseline_new k) ops = (rs, b) -> existsb is_panic rs = false -> all_disciplined rs_empty ops rs ->
    selection b (rfinal rs_empty ops rs) l -> intact b l -> plain l -> fits_format l -> closed b l ->
    (forall c ord, In (c, ord) l ->
       layout_ok (ci_ty c) /\ ct_chans (ci_ty c) = [] /\ ct_id (ci_ty c) <> reserved_id) ->
    forall n b1 l1, generations reload b l n b1 l1 ->
      (0 < n -> exists obj, copy_of b l b1 (map fst l1) obj) /\
      exists sr, serialize_all b1 ser_new l1 = (Ok tt, sr) /\
      forall ordc ordo, Permutation ordc (hm_cstates sr) -> Permutation ordo (hm_ostates sr) ->
      exists fb, ser_finish b1 sr ordc ordo = Ok (Some fb) /\
      forall k' Cs, Permutation Cs (map (fun p => ci_ty (fst p)) l) ->
      exists d0 cs' d1, builder_new fb k' = Ok d0 /\ register_all d0 Cs = (Ok cs', d1) /\
      forall ds, Permutation ds cs' ->
      exists d2, deserialize_all (deser_new d1) ds = (Ok tt, d2) /\
      forall r, finishes d2 r -> exists b2 obj, r = Ok b2 /\ b_kind b2 = k' /\ copy_of b l b2 cs' obj.
Proof.
  intros k ops rs b l H1 H2 H3 V1 V2 V3 V4 V5 V6 n b1 l1 Hg.
  pose proof (any_hist _ _ _ _ H1 H2 H3) as Hh.
  destruct (generations_inv reload any_value (fun _ => True) reload_ok (fun _ _ _ H => H) k b (rfinal rs_empty ops rs) l n b1 l1 Hh)
    as [k1 [s1 [Hh1 [Hsv1 [Hsh Hn]]]]]; auto.
  { constructor; auto. }
  split.
  { intros Hpos. destruct (Hn Hpos) as [obj [Hcp _]]. eauto. }
  destruct Hh1 as [ops1 [rs1 [A1 [A2 [A3 [<- _]]]]]]. destruct Hsv1 as [W1 W2 W3 W4 W5 W6].
  destruct (C25_round_trip_partial _ _ _ _ _ A1 A2 A3 W1 W2 W3 W4 W5 W6) as [sr [E1 K]].
  exists sr. split; auto. intros ordc ordo P1 P2. destruct (K _ _ P1 P2) as [fb [E2 K2]]. exists fb. split; auto.
  intros k' Cs PC.
  assert (PC' : Permutation Cs (map (fun p => ci_ty (fst p)) l1)).
  { eapply Permutation_trans; [exact PC|].
    assert (X : forall m : list (contract_inst * list index), map (fun p => ci_ty (fst p)) m = map fst (map shape m))
      by (intros; rewrite map_map; reflexivity).
    rewrite !X. apply Permutation_map, Permutation_sym, Hsh. }
  destruct (K2 k' Cs PC') as [d0 [cs' [d1 [E3 [E4 [Ety K3]]]]]]. exists d0, cs', d1. split; auto. split; auto.
  intros ds Pd. destruct (K3 ds Pd) as [d2 [E5 K4]]. exists d2. split; auto.
  intros r Hr. destruct (K4 r Hr) as [b2 [obj2 [E6 [E7 Hcp2]]]].
  destruct n as [|n]; [inversion Hg; subst; eauto|].
  destruct (Hn ltac:(lia)) as [obj [Hcp [Hc [Hnd [Hty1 Hrl1]]]]].
  exists b2, (via obj obj2). split; auto. split; auto.
  apply (copy_via b l b1 (map fst l1) obj l1); auto.
  rewrite Ety, map_map. exact PC'.
Qed.
Print Assumptions C54_any_number_of_saves_and_loads.

(** Only the first time changes values (-0.0, C25): what was loaded is saved as it is. *)
Theorem C54_only_the_first_time_changes_values :
  forall k ops rs b l,
    crun (baseline_new k) ops = (rs, b) -> existsb is_panic rs = false -> all_disciplined rs_empty ops rs ->
    selection b (rfinal rs_empty ops rs) l -> intact b l -> plain l -> fits_format l -> closed b l ->
    (forall c ord, In (c, ord) l ->
       layout_ok (ci_ty c) /\ ct_chans (ci_ty c) = [] /\ ct_id (ci_ty c) <> reserved_id) ->
    forall n b1 l1, generations reload b l n b1 l1 -> 0 < n ->
    forall c ord o i v, In (c, ord) l1 -> In o ord -> field_of b1 c i o = Some v -> stored v = v.
Proof.
  intros k ops rs b l H1 H2 H3 V1 V2 V3 V4 V5 V6 n b1 l1 Hg Hpos c ord o i v Hin Ho Hv.
  pose proof (any_hist _ _ _ _ H1 H2 H3) as Hh.
  destruct (generations_inv reload any_value (fun _ => True) reload_ok (fun _ _ _ H => H) k b (rfinal rs_empty ops rs) l n b1 l1 Hh)
    as [k1 [s1 [Hh1 [Hsv1 [Hsh Hn]]]]]; auto.
  { constructor; auto. }
  destruct (Hn Hpos) as [obj [Hcp [Hc [Hnd [Hty Hrl]]]]].
  eapply (copy_stored b l b1 (map fst l1) obj l1); eauto.
Qed.
Print Assumptions C54_only_the_first_time_changes_values.

(** With files in between: however often a selection was written to a file and loaded, it
    can be written again, whatever the orders, and the file, if it has at most 10^9 bytes,
    is accepted and restores the original selection. *)
Theorem C54_files_can_be_saved_and_loaded_for_ever :
  forall k ops rs b l,
    crun (baseline_new k) ops = (rs, b) -> existsb is_panic rs = false -> all_disciplined rs_empty ops rs ->
    selection b (rfinal rs_empty ops rs) l -> intact b l -> plain l -> fits_format l -> closed b l ->
    (forall c ord, In (c, ord) l ->
       layout_ok (ci_ty c) /\ ct_chans (ci_ty c) = [] /\ ct_id (ci_ty c) <> reserved_id) ->
    rust_values b l -> (saved_tables l <= 1000000)%Z ->
    forall n b1 l1, generations reload_file b l n b1 l1 ->
      (0 < n -> exists obj, copy_of b l b1 (map fst l1) obj) /\
      rust_values b1 l1 /\ saved_tables l1 = saved_tables l /\
      forall ord, (forall sr, Permutation (fst (ord sr)) (hm_cstates sr) /\ Permutation (snd (ord sr)) (hm_ostates sr)) ->
      exists bytes, save b1 l1 ord = Ok bytes /\
      ((Z.of_nat (length bytes) <= 1000000000)%Z ->
       exists fb, load bytes = Some (Some fb) /\
       forall k' Cs, Permutation Cs (map (fun p => ci_ty (fst p)) l) ->
       exists d0 cs' d1, builder_new fb k' = Ok d0 /\ register_all d0 Cs = (Ok cs', d1) /\
       forall ds, Permutation ds cs' ->
       exists d2, deserialize_all (deser_new d1) ds = (Ok tt, d2) /\
       forall r, finishes d2 r -> exists b2 obj, r = Ok b2 /\ b_kind b2 = k' /\ copy_of b l b2 cs' obj).
Proof.
  intros k ops rs b l H1 H2 H3 V1 V2 V3 V4 V5 V6 [Hty Hwr] Hsz n b1 l1 Hg.
  assert (Hh : hist typed k b (rfinal rs_empty ops rs)).
  { exists ops, rs. do 4 (split; [assumption || reflexivity|]). exact Hty. }
  destruct (generations_inv reload_file typed file_sized reload_file_ok file_sized_shape k b (rfinal rs_empty ops rs) l n b1 l1 Hh)
    as [k1 [s1 [Hh1 [Hsv1 [Hsh Hn]]]]]; auto.
  { constructor; auto. } { split; auto. }
  assert (Hfs : file_sized l1) by (apply (file_sized_shape l); [exact Hsh|split; auto]).
  assert (Htot : saved_tables l1 = saved_tables l).
  { assert (E : forall m, saved_tables m =
      (1 + sum (map (fun q : contract_ty * nat => (3 + Z.of_nat (snd q) * (2 + 3 * Z.of_nat (length (ct_states (fst q)))))%Z) (map shape m)))%Z)
      by (intros m; rewrite map_map; reflexivity).
    rewrite !E. rewrite (sum_perm _ _ (Permutation_map _ Hsh)). reflexivity. }
  assert (Hrv1 : rust_values b1 l1).
  { split; [|apply Hfs]. destruct Hh1 as [ops1 [rs1 [_ [_ [_ [_ HQ]]]]]]. exact HQ. }
  split; [intros Hpos; destruct (Hn Hpos) as [obj [Hcp _]]; eauto|].
  split; [exact Hrv1|]. split; [exact Htot|]. intros ord Ho.
  pose proof Hh1 as [ops1 [rs1 [A1 [A2 [A3 [Es1 _]]]]]]. pose proof Hsv1 as W. rewrite <- Es1 in W. destruct W as [W1 W2 W3 W4 W5 W6].
  destruct (C52_save_and_load_restore_partial _ _ _ _ _ A1 A2 A3 W1 W2 W3 W4 W5 W6 Hrv1 ltac:(lia) ord Ho) as [bytes [E1 K]].
  exists bytes. split; auto. intros Hlen. destruct (K Hlen) as [fb [E2 K2]]. exists fb. split; auto.
  intros k' Cs PC.
  assert (Htl : Permutation (map (fun p => ci_ty (fst p)) l1) (map (fun p => ci_ty (fst p)) l)).
  { assert (X : forall m : list (contract_inst * list index), map (fun p => ci_ty (fst p)) m = map fst (map shape m))
      by (intros; rewrite map_map; reflexivity).
    rewrite !X. apply Permutation_map, Hsh. }
  assert (PC' : Permutation Cs (map (fun p => ci_ty (fst p)) l1)).
  { eapply Permutation_trans; [exact PC|apply Permutation_sym, Htl]. }
  destruct (K2 k' Cs PC') as [d0 [cs' [d1 [E3 [E4 [Ety K3]]]]]]. exists d0, cs', d1. split; auto. split; auto.
  intros ds Pd. destruct (K3 ds Pd) as [d2 [E5 K4]]. exists d2. split; auto.
  intros r Hr. destruct (K4 r Hr) as [b2 [obj2 [E6 [E7 Hcp2]]]].
  destruct n as [|n].
  { inversion Hg; subst. eauto. }
  destruct (Hn ltac:(lia)) as [obj [Hcp [Hc [Hnd [Hty1 Hrl1]]]]].
  exists b2, (via obj obj2). split; auto. split; auto.
  apply (copy_via b l b1 (map fst l1) obj l1); auto.
  rewrite Ety, map_map. exact PC'.
Qed.
Print Assumptions C54_files_can_be_saved_and_loaded_for_ever.

(** ** A concrete case: the history of C25 (two contracts, a cycle of references), saved
    and loaded twice *)
Definition ag_objects (b : baseline) (h : index) : list index :=
  match con_at b h with Some cd => cd_objects cd | None => [] end.
Definition ag_load (fb : fb_baseline) (Cs : list contract_ty) : option (baseline * list contract_inst) :=
  match builder_new fb KMain with
  | Ok d0 =>
      match register_all d0 Cs with
      | (Ok cs, d1) =>
          match deserialize_all (deser_new d1) cs with
          | (Ok _, d2) =>
              match deser_finish d2 (ds_states d2) (ag_objects (d_base (ds_b d2)) (ci_handle (d_null (ds_b d2)))) with
              | Ok b' => Some (b', cs)
              | _ => None
              end
          | _ => None
          end
      | _ => None
      end
  | _ => None
  end.
Definition ag_reload (b : baseline) (l : list (contract_inst * list index)) : option (baseline * list contract_inst) :=
  match serialize_all b ser_new l with
  | (Ok _, sr) =>
      match ser_finish b sr (hm_cstates sr) (hm_ostates sr) with
      | Ok (Some fb) => ag_load fb (map (fun p => ci_ty (fst p)) l)
      | _ => None
      end
  | _ => None
  end.
Definition ag_reload_file (b : baseline) (l : list (contract_inst * list index)) : option (baseline * list contract_inst) :=
  match save b l wiOrd with
  | Ok bytes =>
      if (Z.of_nat (length bytes) <=? 1000000000)%Z then
        match load bytes with Some (Some fb) => ag_load fb (map (fun p => ci_ty (fst p)) l) | _ => None end
      else None
  | _ => None
  end.
Lemma ag_load_ok fb Cs b' cs : ag_load fb Cs = Some (b', cs) -> loaded fb Cs b' cs.
Proof.
  unfold ag_load.
  destruct (builder_new fb KMain) as [d0|e|] eqn:E3; try discriminate.
  destruct (register_all d0 _) as [r d1] eqn:E4. destruct r as [cs0|e|]; try discriminate.
  destruct (deserialize_all (deser_new d1) cs0) as [r d2] eqn:E5. destruct r as [[]|e|]; try discriminate.
  destruct (deser_finish d2 _ _) as [b0|e|] eqn:E6; try discriminate. intros H. injection H as <- <-.
  exists KMain, d0, d1, cs0, d2. split; [exact E3|]. split; [exact E4|]. split; [apply Permutation_refl|]. split; [exact E5|].
  eexists _, _. split; [apply Permutation_refl|]. split; [|exact E6].
  intros cd Hcd. unfold ag_objects. rewrite Hcd. apply Permutation_refl.
Qed.
Lemma ag_reload_ok b l b' cs : ag_reload b l = Some (b', cs) -> reload b l b' cs.
Proof.
  unfold ag_reload, reload.
  destruct (serialize_all b ser_new l) as [r sr]. destruct r as [[]|e|]; try discriminate.
  destruct (ser_finish b sr (hm_cstates sr) (hm_ostates sr)) as [[fb|]|e|] eqn:E2; try discriminate. intros H.
  exists sr, (hm_cstates sr), (hm_ostates sr), fb, (map (fun p => ci_ty (fst p)) l).
  do 3 (split; [apply Permutation_refl || reflexivity|]). split; [exact E2|]. split; [apply Permutation_refl|].
  apply ag_load_ok. exact H.
Qed.
Lemma ag_reload_file_ok b l b' cs : ag_reload_file b l = Some (b', cs) -> reload_file b l b' cs.
Proof.
  unfold ag_reload_file, reload_file.
  destruct (save b l wiOrd) as [bytes|e|] eqn:E1; try discriminate.
  destruct (Z.of_nat (length bytes) <=? 1000000000)%Z eqn:E2; [|discriminate]. apply Z.leb_le in E2.
  destruct (load bytes) as [[fb|]|] eqn:E3; try discriminate. intros H.
  exists wiOrd, bytes, fb, (map (fun p => ci_ty (fst p)) l).
  split; [intros sr; split; apply Permutation_refl|]. do 3 (split; [assumption|]). split; [apply Permutation_refl|].
  apply ag_load_ok. exact H.
Qed.
Definition ag_next (f : baseline -> list (contract_inst * list index) -> option (baseline * list contract_inst))
    (p : baseline * list (contract_inst * list index)) : baseline * list (contract_inst * list index) :=
  match f (fst p) (snd p) with
  | Some (b', cs) => (b', map (fun c => (c, rev (ag_objects b' (ci_handle c)))) cs)
  | None => p
  end.
Lemma ag_relisted b cs : (forall c, In c cs -> con_at b (ci_handle c) <> None) ->
  relisted b cs (map (fun c => (c, rev (ag_objects b (ci_handle c)))) cs).
Proof.
  intros H. split.
  - rewrite map_map. cbn. rewrite map_id. apply Permutation_refl.
  - intros c ord Hin. apply in_map_iff in Hin. destruct Hin as [c0 [E Hin]]. injection E as <- <-.
    unfold ag_objects. destruct (con_at b (ci_handle c0)) as [cd|] eqn:E.
    + exists cd. split; auto. apply Permutation_sym, Permutation_rev.
    + destruct (H _ Hin E).
Qed.
Definition ag1 := ag_next ag_reload (rtB, rtL).
Definition ag2 := ag_next ag_reload ag1.
Definition agf1 := ag_next ag_reload_file (rtB, rtL).
Definition agf2 := ag_next ag_reload_file agf1.
Definition ag_live (b : baseline) (cs : list contract_inst) : bool :=
  forallb (fun c => match con_at b (ci_handle c) with Some _ => true | None => false end) cs.
Lemma ag_live_ok b cs : ag_live b cs = true -> forall c, In c cs -> con_at b (ci_handle c) <> None.
Proof.
  unfold ag_live. rewrite forallb_forall. intros H c Hc. specialize (H c Hc). destruct (con_at b (ci_handle c)); congruence.
Qed.
Lemma ag_step (again : baseline -> list (contract_inst * list index) -> baseline -> list contract_inst -> Prop) f p : (forall b l b' cs, f b l = Some (b', cs) -> again b l b' cs) ->
  match f (fst p) (snd p) with Some (b', cs) => ag_live b' cs | None => false end = true ->
  forall b l n, generations again b l n (fst p) (snd p) -> generations again b l (S n) (fst (ag_next f p)) (snd (ag_next f p)).
Proof.
  intros F L b l n H. unfold ag_next. destruct (f (fst p) (snd p)) as [[b' cs]|] eqn:E; [|discriminate L]. cbn [fst snd].
  eapply gen_next; [exact H|apply F; exact E|apply ag_relisted, ag_live_ok; exact L].
Qed.
(** Two generations: the objects come in another order each time; the cycle, the strings and
    the references to contracts are there, -0.0 has become 0.0. *)
Example C54_two_generations :
  generations reload rtB rtL 2 (fst ag2) (snd ag2) /\
  map (fun p => (ci_handle (fst p), snd p)) (snd ag2) = [(rtI 1, [rtI 2; rtI 1]); (rtI 2, [rtI 3])] /\
  map (fun i => field_of (fst ag2) (mkCinst rtN (rtI 1)) i (rtI 1)) [0; 1; 2; 3] =
    [Some (PPrim (VU8 7)); Some (PPrim (VObjectHandle (rtI 2))); Some (PPrim (VF32 1065353216)); Some (PPrim (VContractDataHandle (rtI 2)))] /\
  map (fun i => field_of (fst ag2) (mkCinst rtN (rtI 1)) i (rtI 2)) [0; 1; 2; 3] =
    [Some (PPrim (VU8 8)); Some (PPrim (VObjectHandle (rtI 1))); Some (PPrim (VF32 0)); Some (PPrim (VContractDataHandle (rtI 1)))].
Proof.
  split; [|split; [|split]].
  - apply (ag_step reload ag_reload ag1 ag_reload_ok); [vm_compute; reflexivity|].
    apply (ag_step reload ag_reload (rtB, rtL) ag_reload_ok); [vm_compute; reflexivity|].
    cbn [fst snd]. apply gen_original.
  - vm_compute. reflexivity.
  - vm_compute. reflexivity.
  - vm_compute. reflexivity.
Qed.
Example C54_applies : exists obj, copy_of rtB rtL (fst ag2) (map fst (snd ag2)) obj.
Proof.
  destruct rt_history as (H1 & H2 & H3). destruct rt_hypotheses as (G1 & G2 & G3 & G4 & G5 & G6).
  apply (C54_any_number_of_saves_and_loads _ _ _ _ _ H1 H2 H3 G1 G2 G3 G4 G5 G6 2 _ _ (proj1 C54_two_generations)). auto.
Qed.
(** With files: what is loaded is the same as without them.  (The objects come in another
    order, so even the length of the file need not stay the same.) *)
Example C54_two_files :
  generations reload_file rtB rtL 2 (fst agf2) (snd agf2) /\ snd agf2 = snd ag2 /\
  (exists bytes1 bytes2, save rtB rtL wiOrd = Ok bytes1 /\ save (fst agf1) (snd agf1) wiOrd = Ok bytes2 /\
     (length bytes1, length bytes2) = (752, 756)).
Proof.
  split; [|split].
  - apply (ag_step reload_file ag_reload_file agf1 ag_reload_file_ok); [vm_compute; reflexivity|].
    apply (ag_step reload_file ag_reload_file (rtB, rtL) ag_reload_file_ok); [vm_compute; reflexivity|].
    cbn [fst snd]. apply gen_original.
  - vm_compute. reflexivity.
  - exists wiFile, (match save (fst agf1) (snd agf1) wiOrd with Ok l => l | _ => [] end).
    split; [vm_compute; reflexivity|]. split; vm_compute; reflexivity.
Qed.
Example C54_files_apply : exists obj, copy_of rtB rtL (fst agf2) (map fst (snd agf2)) obj.
Proof.
  destruct rt_history as (H1 & H2 & H3). destruct rt_hypotheses as (G1 & G2 & G3 & G4 & G5 & G6).
  apply (fun A => C54_files_can_be_saved_and_loaded_for_ever _ _ _ _ _ H1 H2 H3 G1 G2 G3 G4 G5 G6 wi_values A 2 _ _ (proj1 C54_two_files)); auto.
  vm_compute. discriminate.
Qed.

(** ** C51: what a loaded baseline holds *)

(** From whatever bytes a baseline was loaded: its numbers fit their widths and its texts
    are UTF-8. *)
Theorem C51_loaded_values_are_proper :
  forall bytes fb k cs tried done d b',
    file bytes -> load bytes = Some (Some fb) ->
    deserializes fb k cs tried done d -> finishes d (Ok b') ->
    forall t h v, st_at b' t h = Some v -> typed v.
Proof.
  intros bytes fb k cs tried done d b' Hb Hl Hd Hf.
  destruct (C51_accepted_files_hold_proper_values _ _ Hb Hl) as [_ Hheld].
  destruct (finishes_hist typed fb) with (k := k) (cs := cs) (tried := tried) (done := done) (d := d) (b' := b')
    as [s [[ops [rs [_ [_ [_ [_ HQ]]]]]] _]]; auto.
  - intros n fv contracts v. apply held_typed. exact Hheld.
  - intros o. exact I.
Qed.
Print Assumptions C51_loaded_values_are_proper.
Lemma loaded_is fb Cs b' cs' : loaded fb Cs b' cs' ->
  exists k ds d, deserializes fb k cs' ds ds d /\ finishes d (Ok b').
Proof.
  intros [k' [d0 [d1 [ds [d2 [G6 [G7 [G8 [G9 G10]]]]]]]]].
  destruct (register_all_builds fb k' Cs [] d0 cs' d1) as [Hb Ety]; auto. { constructor; auto. }
  cbn [app] in Hb. exists k', ds, d2. split; auto.
  change (deserializes fb k' cs' ([] ++ ds) ([] ++ ds) d2).
  eapply deserialize_all_deserializes; eauto. { constructor; auto. } intros x Hx. eapply Permutation_in; eauto.
Qed.
Example C51_loaded_values_apply :
  (forall t h v, st_at (fst agf1) t h = Some v -> typed v) /\
  st_at (fst agf1) (TPrim TU8) (rtI 0) <> None.
Proof.
  split; [|vm_compute; discriminate].
  assert (L : exists cs, loaded rtFb (map (fun p => ci_ty (fst p)) rtL) (fst agf1) cs).
  { destruct (ag_load rtFb (map (fun p => ci_ty (fst p)) rtL)) as [[b' cs]|] eqn:E.
    - exists cs. replace (fst agf1) with b'; [apply ag_load_ok; exact E|].
      transitivity (match ag_load rtFb (map (fun p => ci_ty (fst p)) rtL) with Some (x, _) => x | None => b' end).
      + rewrite E. reflexivity.
      + vm_compute. reflexivity.
    - exfalso. apply (f_equal (fun o => match o with Some _ => true | None => false end)) in E. revert E. vm_compute. discriminate. }
  destruct L as [cs L]. destruct (loaded_is _ _ _ _ L) as [k [ds [d [Hd Hf]]]].
  destruct wi_saved as (_ & _ & Hl).
  refine (C51_loaded_values_are_proper wiFile rtFb _ _ _ _ _ _ _ Hl Hd Hf).
  apply Forall_forall. intros z Hz.
  assert (F : forallb (fun z => (0 <=? z)%Z && (z <? 256)%Z) wiFile = true) by (vm_compute; reflexivity).
  rewrite forallb_forall in F. specialize (F z Hz). apply andb_prop in F. destruct F as [F1 F2].
  apply Z.leb_le in F1. apply Z.ltb_lt in F2. lia.
Qed.
