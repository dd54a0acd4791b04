(** Lemmas for C54: copies can be saved, and copies of copies are copies. *)
From Verif Require Import BaseProofs PropertiesTags PropertiesBaseline SerProofs PropertiesSer PropertiesRound.
From Verif Require Import PropertiesRecord DeserHistory.
Open Scope list_scope.
Open Scope nat_scope.

Notation entries := (list (contract_inst * list index)) (only parsing).

(** What C25 asks of a selection. *)
Record savable (b : baseline) (s : rstate) (l : entries) : Prop := {
  sv_sel : selection b s l;
  sv_intact : intact b l;
  sv_plain : plain l;
  sv_fits : fits_format l;
  sv_closed : closed b l;
  sv_nice : forall c ord, In (c, ord) l ->
    layout_ok (ci_ty c) /\ ct_chans (ci_ty c) = [] /\ ct_id (ci_ty c) <> reserved_id
}.

(** ** Registering and deserializing several contracts, as histories *)
Lemma register_all_builds fb k : forall Cs cs d cs' d',
  builds fb k cs d -> register_all d Cs = (Ok cs', d') -> builds fb k (cs ++ cs') d' /\ map ci_ty cs' = Cs.
Proof.
  induction Cs as [|C Cs IH]; intros cs d cs' d' Hb E; cbn [register_all] in E.
  - injection E as <- <-. rewrite app_nil_r. auto.
  - destruct (builder_register d C) as [r d1] eqn:E1. destruct r as [c|e|]; try discriminate.
    destruct (register_all d1 Cs) as [r d2] eqn:E2. destruct r as [l|e|]; try discriminate. injection E as <- <-.
    destruct (IH (cs ++ [c]) d1 l d2) as [H1 H2]; auto. { eapply builds_ok; eauto. }
    rewrite <- app_assoc in H1. split; [exact H1|]. cbn. f_equal; auto.
    destruct (builds_inv _ _ _ _ Hb) as [s [fs [fc [Hd _]]]].
    apply (builder_register_spec _ _ _ _ _ _ _ _ _ _ Hd E1).
Qed.
Lemma deserialize_all_deserializes fb k cs : forall ds tried done d d' u,
  deserializes fb k cs tried done d -> incl ds cs -> deserialize_all d ds = (Ok u, d') ->
  deserializes fb k cs (tried ++ ds) (done ++ ds) d'.
Proof.
  induction ds as [|c ds IH]; intros tried done d d' u Hd Hi E; cbn [deserialize_all] in E.
  - injection E as <- <-. rewrite !app_nil_r. auto.
  - destruct (deserialize_objects d c) as [r d1] eqn:E1. destruct r as [[]|e|]; try discriminate.
    specialize (IH (tried ++ [c]) (done ++ [c]) d1 d' u). rewrite <- !app_assoc in IH. apply IH; auto.
    + eapply des_ok; eauto. apply Hi; left; auto.
    + intros x Hx. apply Hi; right; auto.
Qed.

(** ** Counting *)
Lemma list_sum_app' l m : list_sum (l ++ m) = list_sum l + list_sum m.
Proof. apply list_sum_app. Qed.
Lemma list_sum_perm l m : Permutation l m -> list_sum l = list_sum m.
Proof. unfold list_sum. induction 1; cbn [fold_right] in *; lia. Qed.
Lemma listing_length l : forall k, length (listing k l) = list_sum (map (fun p => length (snd p)) l).
Proof. induction l as [|[c ord] l IH]; intros k; cbn; auto. rewrite app_length, map_length, IH. reflexivity. Qed.
Lemma sum_const (A : Type) (n : nat) (l : list A) : list_sum (map (fun _ => n) l) = length l * n.
Proof. unfold list_sum. induction l as [|a l IH]; cbn [map fold_right length]; lia. Qed.
Lemma field_count_sum l : field_count l = list_sum (map (fun p => length (snd p) * length (ct_states (ci_ty (fst p)))) l).
Proof.
  unfold field_count. generalize 0. induction l as [|[c ord] l IH]; intros k; cbn [listing map list_sum fold_right]; auto.
  rewrite map_app, list_sum_app', IH, map_map. cbn [fst snd]. rewrite sum_const. reflexivity.
Qed.

Definition shape (p : contract_inst * list index) : contract_ty * nat := (ci_ty (fst p), length (snd p)).
Lemma shape_fits l l' : Permutation (map shape l') (map shape l) -> fits_format l -> fits_format l'.
Proof.
  intros Hp [H1 [H2 H3]].
  assert (E1 : length l' = length l) by (apply Permutation_length in Hp; rewrite !map_length in Hp; auto).
  assert (E2 : length (listing 0 l') = length (listing 0 l)).
  { rewrite !listing_length. apply list_sum_perm.
    assert (X : forall l : entries, map (fun p => length (snd p)) l = map snd (map shape l)) by (intros; rewrite map_map; reflexivity).
    rewrite !X. apply Permutation_map; auto. }
  assert (E3 : field_count l' = field_count l).
  { rewrite !field_count_sum. apply list_sum_perm.
    assert (X : forall l : entries, map (fun p => length (snd p) * length (ct_states (ci_ty (fst p)))) l =
      map (fun q => snd q * length (ct_states (fst q))) (map shape l)) by (intros; rewrite map_map; reflexivity).
    rewrite !X. apply Permutation_map; auto. }
  unfold fits_format. rewrite E1, E2, E3. auto.
Qed.

(** ** A copy can be saved *)

(** [l] lists the contracts [cs] of [b] with their objects, in some order. *)
Definition relisted (b : baseline) (cs : list contract_inst) (l : entries) : Prop :=
  Permutation (map fst l) cs /\
  forall c ord, In (c, ord) l -> exists cd, con_at b (ci_handle c) = Some cd /\ Permutation ord (cd_objects cd).

Lemma same_length_bij (A B : Type) (R : A -> B -> Prop) l m :
  NoDup l -> NoDup m -> (forall a b a' b', R a b -> R a' b' -> (a = a' <-> b = b')) ->
  (forall a, In a l -> exists b, In b m /\ R a b) -> (forall b, In b m -> exists a, In a l /\ R a b) ->
  length l = length m.
Proof.
  intros Hl. revert m. induction Hl as [|a l Ha Hl IH]; intros m Hm H1 Hf Ht.
  - destruct m as [|b m]; auto. destruct (Ht b (or_introl eq_refl)) as [a [[] _]].
  - destruct (Hf a (or_introl eq_refl)) as [b [Hb Hab]].
    apply in_split in Hb. destruct Hb as [m1 [m2 ->]]. rewrite app_length. cbn. rewrite Nat.add_succ_r, <- app_length. f_equal.
    apply IH; auto.
    + apply NoDup_remove_1 in Hm; auto.
    + intros x Hx. destruct (Hf x (or_intror Hx)) as [y [Hy Hxy]]. exists y. split; auto.
      apply in_app_or in Hy. apply in_or_app. destruct Hy as [Hy|[<-|Hy]]; auto.
      destruct Ha. rewrite (proj2 (H1 _ _ _ _ Hab Hxy) eq_refl). auto.
    + intros y Hy. destruct (Ht y) as [x [Hx Hxy]]. { apply in_app_or in Hy. apply in_or_app. destruct Hy; auto. right; right; auto. }
      exists x. split; auto. destruct Hx as [<-|Hx]; auto.
      apply NoDup_remove_2 in Hm. destruct Hm. rewrite (proj1 (H1 _ _ _ _ Hab Hxy) eq_refl). auto.
Qed.

Section Copy.
Variables (b : baseline) (s : rstate) (fs fc : index -> list index) (l : entries)
  (b' : baseline) (s' : rstate) (fs' fc' : index -> list index) (cs' : list contract_inst)
  (obj : index -> index -> Prop) (l' : entries).
Hypotheses (Hr : rrel b s fs fc) (Hr' : rrel b' s' fs' fc') (Hsv : savable b s l)
  (Hcp : copy_of b l b' cs' obj) (Hcon : forall h C, rs_con s' h = Some C <-> In (mkCinst C h) cs')
  (Hnd : NoDup (map ci_handle cs'))
  (Hty : Permutation (map ci_ty cs') (map (fun p => ci_ty (fst p)) l)) (Hre : relisted b' cs' l').

Lemma cs_of_l' c ord : In (c, ord) l' -> In c cs'.
Proof. intros H. eapply Permutation_in; [apply Hre|]. apply in_map_iff. exists (c, ord). auto. Qed.
Lemma l'_of_cs c : In c cs' -> exists ord, In (c, ord) l'.
Proof.
  intros H. apply (Permutation_in _ (Permutation_sym (proj1 Hre))) in H. apply in_map_iff in H.
  destruct H as [[c0 ord] [E H]]. cbn in E. subst. eauto.
Qed.
Lemma cs_to_l c : In c cs' -> exists c0 ord0, In (c0, ord0) l /\ ci_ty c = ci_ty c0.
Proof.
  intros H. assert (Hx : In (ci_ty c) (map ci_ty cs')) by (apply in_map; auto).
  apply (Permutation_in _ Hty) in Hx. apply in_map_iff in Hx. destruct Hx as [[c0 ord0] [E Hx]]. exists c0, ord0. auto.
Qed.
Lemma l_to_cs c0 ord0 : In (c0, ord0) l -> exists c, In c cs' /\ ci_ty c = ci_ty c0.
Proof.
  intros H. assert (Hx : In (ci_ty c0) (map (fun p => ci_ty (fst p)) l)) by (apply in_map_iff; exists (c0, ord0); auto).
  apply (Permutation_in _ (Permutation_sym Hty)) in Hx. apply in_map_iff in Hx. destruct Hx as [c [E Hx]]. eauto.
Qed.
(** Contract ids are distinct among live contracts. *)
Lemma l_ids c1 o1 c2 o2 : In (c1, o1) l -> In (c2, o2) l -> ci_ty c1 = ci_ty c2 -> (c1, o1) = (c2, o2).
Proof.
  intros H1 H2 E. pose proof (sv_sel _ _ _ Hsv) as Hsel.
  pose proof (sel_reg _ _ _ Hsel _ _ H1) as R1. pose proof (sel_reg _ _ _ Hsel _ _ H2) as R2.
  pose proof (rr_con _ _ _ _ Hr (ci_handle c1)) as K1. pose proof (rr_con _ _ _ _ Hr (ci_handle c2)) as K2.
  rewrite R1 in K1. rewrite R2 in K2. destruct K1 as [cd1 [G1 [G2 _]]], K2 as [cd2 [G3 [G4 _]]].
  apply (nodup_map_inj (fun p => ci_handle (fst p)) l (sel_once _ _ _ Hsel)); auto. cbn.
  apply (bi_ids _ (rr_inv _ _ _ _ Hr) _ _ _ _ G1 G3). congruence.
Qed.
Lemma cs_ids c1 c2 : In c1 cs' -> In c2 cs' -> ci_ty c1 = ci_ty c2 -> c1 = c2.
Proof.
  intros H1 H2 E.
  assert (R1 : rs_con s' (ci_handle c1) = Some (ci_ty c1)) by (apply Hcon; destruct c1; auto).
  assert (R2 : rs_con s' (ci_handle c2) = Some (ci_ty c2)) by (apply Hcon; destruct c2; auto).
  pose proof (rr_con _ _ _ _ Hr' (ci_handle c1)) as K1. pose proof (rr_con _ _ _ _ Hr' (ci_handle c2)) as K2.
  rewrite R1 in K1. rewrite R2 in K2. destruct K1 as [cd1 [G1 [G2 _]]], K2 as [cd2 [G3 [G4 _]]].
  apply (nodup_map_inj ci_handle cs'); auto.
  apply (bi_ids _ (rr_inv _ _ _ _ Hr') _ _ _ _ G1 G3). congruence.
Qed.
Lemma handles_l' : NoDup (map (fun p => ci_handle (fst p)) l').
Proof.
  rewrite <- map_map. eapply Permutation_NoDup; [apply Permutation_map, Permutation_sym, Hre|]. auto.
Qed.
Lemma ord_nodup' c ord : In (c, ord) l' -> NoDup ord.
Proof.
  intros H. destruct (proj2 Hre _ _ H) as [cd [H1 H2]]. eapply Permutation_NoDup; [apply Permutation_sym; eauto|].
  exact (bi_nodup _ (rr_inv _ _ _ _ Hr') _ _ H1).
Qed.
Lemma ord_nodup c ord : In (c, ord) l -> NoDup ord.
Proof.
  intros H. destruct (sel_ord _ _ _ (sv_sel _ _ _ Hsv) _ _ H) as [cd [H1 H2]].
  eapply Permutation_NoDup; [apply Permutation_sym; eauto|]. exact (bi_nodup _ (rr_inv _ _ _ _ Hr) _ _ H1).
Qed.

(** The objects listed for the copy of a contract are the copies of its objects. *)
Lemma ord_objs c0 ord0 c ord : In (c0, ord0) l -> In (c, ord) l' -> ci_ty c = ci_ty c0 ->
  forall o', In o' ord <-> exists o, In o ord0 /\ obj o o'.
Proof.
  intros H0 H E o'. destruct (proj2 Hre _ _ H) as [cd [H1 H2]].
  destruct (cp_con_same _ _ _ _ _ Hcp _ _ _ H0 (cs_of_l' _ _ H) E) as [cd' [H3 [_ H4]]].
  assert (cd' = cd) by congruence. subst cd'. rewrite <- H4. split; apply Permutation_in; [auto|apply Permutation_sym; auto].
Qed.
Lemma ord_same_length c0 ord0 c ord : In (c0, ord0) l -> In (c, ord) l' -> ci_ty c = ci_ty c0 -> length ord = length ord0.
Proof.
  intros H0 H E. symmetry. apply (same_length_bij _ _ obj).
  - eapply ord_nodup; eauto.
  - eapply ord_nodup'; eauto.
  - apply (cp_obj_one _ _ _ _ _ Hcp).
  - intros o Ho. destruct (proj2 (cp_obj_from _ _ _ _ _ Hcp o)) as [o' Hob]; [eauto|].
    exists o'. split; auto. apply (ord_objs _ _ _ _ H0 H E). eauto.
  - intros o' Ho'. apply (ord_objs _ _ _ _ H0 H E) in Ho'. destruct Ho' as [o [H1 H2]]. eauto.
Qed.

Lemma shapes_permute : Permutation (map shape l') (map shape l).
Proof.
  assert (Hn : NoDup (map (fun p => ci_ty (fst p)) l)).
  { pose proof (NoDup_map_inv _ _ (sel_once _ _ _ (sv_sel _ _ _ Hsv))) as Hl.
    assert (Hids := l_ids). clear - Hl Hids.
    induction Hl as [|[c ord] l0 H1 H2 IH]; cbn; constructor.
    - intros Hx. apply in_map_iff in Hx. destruct Hx as [[c' ord'] [E Hx]]. cbn in E.
      pose proof (Hids c' ord' c ord (or_intror Hx) (or_introl eq_refl) E) as Heq. congruence.
    - apply IH. intros; eapply Hids; eauto; right; auto. }
  assert (Hn' : NoDup (map (fun p => ci_ty (fst p)) l')).
  { rewrite <- map_map. eapply Permutation_NoDup; [apply Permutation_map, Permutation_sym, Hre|].
    eapply Permutation_NoDup; [apply Permutation_sym, Hty|]. auto. }
  apply NoDup_Permutation.
  - apply (NoDup_map_inv fst). rewrite map_map. exact Hn'.
  - apply (NoDup_map_inv fst). rewrite map_map. exact Hn.
  - intros q. split; intros H; apply in_map_iff in H; destruct H as [[c ord] [<- H]].
    + destruct (cs_to_l _ (cs_of_l' _ _ H)) as [c0 [ord0 [H0 E]]].
      apply in_map_iff. exists (c0, ord0). split; auto. unfold shape. cbn [fst snd].
      rewrite (ord_same_length _ _ _ _ H0 H E), E. reflexivity.
    + destruct (l_to_cs _ _ H) as [c' [H1 E]]. destruct (l'_of_cs _ H1) as [ord' H2].
      apply in_map_iff. exists (c', ord'). split; auto. unfold shape. cbn [fst snd].
      rewrite (ord_same_length _ _ _ _ H H2 E), E. reflexivity.
Qed.

Lemma field_of_range b0 c i o v : field_of b0 c i o = Some v -> exists t, nth_error (ct_states (ci_ty c)) i = Some t.
Proof. unfold field_of, ci_state_id. destruct (nth_error (ct_states (ci_ty c)) i); [eauto|discriminate]. Qed.

Lemma in_listing (m : entries) n c o : In (n, c, o) (listing 0 m) -> exists ord, In (c, ord) m /\ In o ord.
Proof.
  intros H. apply In_nth_error in H. destruct H as [j H]. apply listing_nth in H. destruct H as [_ [ord [H1 H2]]].
  exists ord. split; auto. eapply nth_error_In; eauto.
Qed.
Lemma listed_in (m : entries) c ord o : In (c, ord) m -> In o ord -> exists j, listed m j o.
Proof.
  intros H Ho. apply In_nth_error in H. destruct H as [n H]. pose proof (listing_in m 0 _ _ _ _ H Ho) as Hx.
  apply In_nth_error in Hx. destruct Hx as [j Hj]. exists j, (0 + n), c. auto.
Qed.

Lemma copy_savable : savable b' s' l'.
Proof.
  constructor.
  - constructor.
    + intros c ord H. apply Hcon. pose proof (cs_of_l' _ _ H). destruct c; auto.
    + apply Hre.
    + apply handles_l'.
  - intros c ord o H Ho. destruct (cs_to_l _ (cs_of_l' _ _ H)) as [c0 [ord0 [H0 E]]].
    apply (ord_objs _ _ _ _ H0 H E) in Ho. destruct Ho as [o0 [_ Ho]]. apply (cp_obj_to _ _ _ _ _ Hcp). eauto.
  - intros c ord p H. destruct (cs_to_l _ (cs_of_l' _ _ H)) as [c0 [ord0 [H0 E]]]. rewrite E.
    exact (sv_plain _ _ _ Hsv _ _ _ H0).
  - apply (shape_fits l); [apply shapes_permute|apply (sv_fits _ _ _ Hsv)].
  - intros n c o' i v' Hin Hv'. destruct (in_listing _ _ _ _ Hin) as [ord [H Ho']].
    destruct (cs_to_l _ (cs_of_l' _ _ H)) as [c0 [ord0 [H0 E]]].
    apply (ord_objs _ _ _ _ H0 H E) in Ho'. destruct Ho' as [o [Ho Hob]].
    destruct (cp_obj_same _ _ _ _ _ Hcp _ _ _ _ _ H0 Ho (cs_of_l' _ _ H) E Hob) as [ob' [_ [_ [_ [_ Hf]]]]].
    destruct (field_of_range _ _ _ _ _ Hv') as [t Ht]. rewrite E in Ht.
    destruct (Hf _ _ Ht) as [v [v1 [_ [Hv1 Hco]]]]. assert (v1 = v') by congruence. subst v1.
    split.
    + intros o1' ->. remember (PPrim (VObjectHandle o1')) as y eqn:Ey. destruct Hco as [o1 o2 Ho1|h1 h2 _|v1 N1 N2]; [injection Ey as ->|discriminate Ey|subst; destruct N1; reflexivity].
      destruct (proj1 (cp_obj_from _ _ _ _ _ Hcp o1)) as [c1 [ord1 [H1 Hin1]]]; [eauto|].
      destruct (l_to_cs _ _ H1) as [c1' [H2 E2]]. destruct (l'_of_cs _ H2) as [ord1' H3].
      apply (listed_in _ c1' ord1'); auto. apply (ord_objs _ _ _ _ H1 H3 E2). eauto.
    + intros h' ->. remember (PPrim (VContractDataHandle h')) as y eqn:Ey. destruct Hco as [o1 o2 Ho1|h h2 Hh|v1 N1 N2]; [discriminate Ey|injection Ey as ->|subst; destruct N2; reflexivity].
      destruct Hh as [c1 [ord1 [c1' [A1 [A2 [A3 [A4 A5]]]]]]]. destruct (l'_of_cs _ A2) as [ord1' H3].
      apply In_nth_error in H3. destruct H3 as [m Hm]. exists m, c1', ord1'. auto.
  - intros c ord H. destruct (cs_to_l _ (cs_of_l' _ _ H)) as [c0 [ord0 [H0 E]]]. rewrite E.
    exact (sv_nice _ _ _ Hsv _ _ H0).
Qed.

(** Values of the copy do not change any more. *)
Lemma stored_stored v : stored (stored v) = stored v.
Proof.
  destruct v as [p|p]; auto. destruct p as [| | | | | | | | |x|x| | |]; auto; cbn [stored].
  - destruct (Z.eqb (x mod 2 ^ 31) 0) eqn:E; [reflexivity|rewrite E; reflexivity].
  - destruct (Z.eqb (x mod 2 ^ 63) 0) eqn:E; [reflexivity|rewrite E; reflexivity].
Qed.
Lemma corresponds_stored (ob co : index -> index -> Prop) v v' : corresponds ob co (stored v) v' -> stored v' = v'.
Proof. intros H. remember (stored v) as w. destruct H; auto. subst. apply stored_stored. Qed.
Lemma corresponds_stored' (ob co : index -> index -> Prop) v v' : corresponds ob co v v' -> v = stored v -> stored v' = v'.
Proof. intros H E. rewrite E in H. eapply corresponds_stored; eauto. Qed.

Lemma copy_stored c ord o i v : In (c, ord) l' -> In o ord -> field_of b' c i o = Some v -> stored v = v.
Proof.
  intros H Ho Hv. destruct (cs_to_l _ (cs_of_l' _ _ H)) as [c0 [ord0 [H0 E]]].
  apply (ord_objs _ _ _ _ H0 H E) in Ho. destruct Ho as [o0 [Ho0 Hob]].
  destruct (cp_obj_same _ _ _ _ _ Hcp _ _ _ _ _ H0 Ho0 (cs_of_l' _ _ H) E Hob) as [ob' [_ [_ [_ [_ Hf]]]]].
  destruct (field_of_range _ _ _ _ _ Hv) as [t Ht]. rewrite E in Ht.
  destruct (Hf _ _ Ht) as [v0 [v1 [_ [Hv1 Hco]]]]. assert (v1 = v) by congruence. subst v1.
  eapply corresponds_stored; eauto.
Qed.

(** ** A copy of the copy *)
Variables (b2 : baseline) (cs2 : list contract_inst) (obj2 : index -> index -> Prop).
Hypotheses (Hcp2 : copy_of b' l' b2 cs2 obj2) (Hty2 : Permutation (map ci_ty cs2) (map ci_ty cs')).

Definition via (o o2 : index) : Prop := exists o', obj o o' /\ obj2 o' o2.

Lemma cs2_to_cs c2 : In c2 cs2 -> exists c', In c' cs' /\ ci_ty c2 = ci_ty c'.
Proof.
  intros H. assert (Hx : In (ci_ty c2) (map ci_ty cs2)) by (apply in_map; auto).
  apply (Permutation_in _ Hty2) in Hx. apply in_map_iff in Hx. destruct Hx as [c' [E Hx]]. exists c'. auto.
Qed.
Lemma cs_to_cs2 c' : In c' cs' -> exists c2, In c2 cs2 /\ ci_ty c2 = ci_ty c'.
Proof.
  intros H. assert (Hx : In (ci_ty c') (map ci_ty cs')) by (apply in_map; auto).
  apply (Permutation_in _ (Permutation_sym Hty2)) in Hx. apply in_map_iff in Hx. destruct Hx as [c2 [E Hx]]. exists c2. auto.
Qed.
(** A contract handle corresponds through the copy. *)
Lemma same_via h h2 : same_contract l cs2 h h2 <-> exists h', same_contract l cs' h h' /\ same_contract l' cs2 h' h2.
Proof.
  split.
  - intros [c [ord [c2 [H1 [H2 [H3 [H4 H5]]]]]]]. destruct (l_to_cs _ _ H1) as [c' [H6 H7]].
    destruct (l'_of_cs _ H6) as [ord' H8]. exists (ci_handle c'). split.
    + exists c, ord, c'. auto.
    + exists c', ord', c2. repeat split; auto. congruence.
  - intros [h' [[c [ord [c' [H1 [H2 [H3 [H4 H5]]]]]]] [c1 [ord1 [c2 [K1 [K2 [K3 [K4 K5]]]]]]]]].
    assert (c1 = c').
    { apply (nodup_map_inj ci_handle cs'); auto; [eapply cs_of_l'; eauto|congruence]. }
    subst c1. exists c, ord, c2. repeat split; auto. congruence.
Qed.

Lemma copy_via : copy_of b l b2 cs2 via.
Proof.
  constructor.
  - intros c ord H. destruct (cp_con_from _ _ _ _ _ Hcp _ _ H) as [h' H1].
    destruct H1 as [c1 [ord1 [c' [H1 [H2 [H3 [H4 H5]]]]]]].
    destruct (cs_to_cs2 _ H2) as [c2 [H6 H7]]. exists (ci_handle c2), c1, ord1, c2. repeat split; auto. congruence.
  - intros h2. rewrite (cp_con_to _ _ _ _ _ Hcp2). split.
    + intros [h' H']. pose proof H' as [c' [ord' [c2 [H1 [H2 [H3 [H4 H5]]]]]]].
      destruct (cs_to_l _ (cs_of_l' _ _ H1)) as [c0 [ord0 [H6 H7]]].
      exists (ci_handle c0), c0, ord0, c2. repeat split; auto. congruence.
    + intros [h H]. apply same_via in H. destruct H as [h' [_ H]]. eauto.
  - intros h1 h1' h2 h2' H1 H2. apply same_via in H1, H2. destruct H1 as [x1 [A1 A2]], H2 as [x2 [B1 B2]].
    rewrite (cp_con_one _ _ _ _ _ Hcp _ _ _ _ A1 B1). apply (cp_con_one _ _ _ _ _ Hcp2 _ _ _ _ A2 B2).
  - intros c ord c2 H H2 E. destruct (l_to_cs _ _ H) as [c' [H3 H4]]. destruct (l'_of_cs _ H3) as [ord' H5].
    destruct (cp_con_same _ _ _ _ _ Hcp2 _ _ _ H5 H2) as [cd2 [K1 [K2 K3]]]; [congruence|].
    exists cd2. split; auto. split; [congruence|]. intros o2. rewrite K3. split.
    + intros [o' [Ho' Hob]]. apply (ord_objs _ _ _ _ H H5 H4) in Ho'. destruct Ho' as [o [Ho Hob']]. exists o. split; auto. exists o'. auto.
    + intros [o [Ho [o' [Hob Hob2]]]]. exists o'. split; auto. apply (ord_objs _ _ _ _ H H5 H4). eauto.
  - intros o. rewrite <- (cp_obj_from _ _ _ _ _ Hcp). split.
    + intros [o2 [o' [H _]]]. eauto.
    + intros [o' H]. assert (Hx : exists o2, obj2 o' o2).
      { apply (cp_obj_from _ _ _ _ _ Hcp2). destruct (proj1 (cp_obj_from _ _ _ _ _ Hcp o)) as [c [ord [H1 H2]]]; [eauto|].
        destruct (l_to_cs _ _ H1) as [c' [H3 H4]]. destruct (l'_of_cs _ H3) as [ord' H5].
        exists c', ord'. split; auto. apply (ord_objs _ _ _ _ H1 H5 H4). eauto. }
      destruct Hx as [o2 Hx]. exists o2, o'. auto.
  - intros o2. rewrite (cp_obj_to _ _ _ _ _ Hcp2). split.
    + intros [o' H]. destruct (proj1 (cp_obj_from _ _ _ _ _ Hcp2 o')) as [c' [ord' [H1 H2]]]; [eauto|].
      destruct (cs_to_l _ (cs_of_l' _ _ H1)) as [c0 [ord0 [H0 E]]].
      apply (ord_objs _ _ _ _ H0 H1 E) in H2. destruct H2 as [o [_ H2]]. exists o, o'. auto.
    + intros [o [o' [_ H]]]. eauto.
  - intros o1 o1' o2 o2' [x1 [A1 A2]] [x2 [B1 B2]].
    rewrite (cp_obj_one _ _ _ _ _ Hcp _ _ _ _ A1 B1). apply (cp_obj_one _ _ _ _ _ Hcp2 _ _ _ _ A2 B2).
  - intros c ord c2 o o2 H Ho H2 E [o' [Hob Hob2]].
    destruct (l_to_cs _ _ H) as [c' [H3 H4]]. destruct (l'_of_cs _ H3) as [ord' H5].
    assert (Ho' : In o' ord') by (apply (ord_objs _ _ _ _ H H5 H4); eauto).
    assert (E2 : ci_ty c2 = ci_ty c') by congruence.
    destruct (cp_obj_same _ _ _ _ _ Hcp _ _ _ _ _ H Ho H3 H4 Hob) as [ob' [_ [_ [_ [_ Hf]]]]].
    destruct (cp_obj_same _ _ _ _ _ Hcp2 _ _ _ _ _ H5 Ho' H2 E2 Hob2) as [ob2 [G1 [G2 [G3 [G4 Hf2]]]]].
    exists ob2. do 4 (split; [assumption|]). intros i t Ht.
    destruct (Hf _ _ Ht) as [v [v' [F1 [F2 F3]]]]. rewrite <- H4 in Ht.
    destruct (Hf2 _ _ Ht) as [w [v2 [F4 [F5 F6]]]]. assert (w = v') by congruence. subst w.
    exists v, v2. split; auto. split; auto. rewrite (corresponds_stored _ _ _ _ F3) in F6.
    remember (stored v) as x. destruct F3 as [p p' Hp|p p' Hp|p N1 N2].
    + remember (PPrim (VObjectHandle p')) as y. destruct F6 as [q q' Hq|q q' Hq|q M1 M2]; subst; try discriminate.
      * injection Heqy as ->. apply co_object. exists p'. auto.
      * destruct M1. reflexivity.
    + remember (PPrim (VContractDataHandle p')) as y. destruct F6 as [q q' Hq|q q' Hq|q M1 M2]; subst; try discriminate.
      * injection Heqy as ->. apply co_contract. apply same_via. eauto.
      * destruct M2. reflexivity.
    + destruct F6 as [q q' Hq|q q' Hq|q M1 M2].
      * destruct N1. reflexivity.
      * destruct N2. reflexivity.
      * apply co_other; auto.
Qed.
End Copy.
