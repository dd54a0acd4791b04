(** C25: serialize then deserialize. *)
From Verif Require Import BaseProofs PropertiesTags PropertiesBaseline SerProofs PropertiesSer.
Import Coq.Strings.String.StringSyntax.
Open Scope string_scope.
Open Scope list_scope.
Open Scope nat_scope.

(** ** Specification *)

(** Equal, up to the correspondences [obj] and [con] of handles. *)
Inductive corresponds (obj con : index -> index -> Prop) : dynprop -> dynprop -> Prop :=
| co_object o o' : obj o o' -> corresponds obj con (PPrim (VObjectHandle o)) (PPrim (VObjectHandle o'))
| co_contract h h' : con h h' -> corresponds obj con (PPrim (VContractDataHandle h)) (PPrim (VContractDataHandle h'))
| co_other v : prop_type v <> TPrim TObjectHandle -> prop_type v <> TPrim TContractDataHandle -> corresponds obj con v v.

(** Contract handles correspond if their contracts have the same type. *)
Definition same_contract (l : list (contract_inst * list index)) (cs' : list contract_inst) (h h' : index) : Prop :=
  exists c ord c', In (c, ord) l /\ In c' cs' /\ ci_ty c' = ci_ty c /\ ci_handle c = h /\ ci_handle c' = h'.

(** [b'] is a copy of the part [l] of [b]; [obj] relates originals and copies. *)
Record copy_of (b : baseline) (l : list (contract_inst * list index)) (b' : baseline) (cs' : list contract_inst)
    (obj : index -> index -> Prop) : Prop := {
  cp_con_from : forall c ord, In (c, ord) l -> exists h', same_contract l cs' (ci_handle c) h';
  cp_con_to : forall h', con_at b' h' <> None <-> exists h, same_contract l cs' h h';
  cp_con_one : forall h1 h1' h2 h2', same_contract l cs' h1 h1' -> same_contract l cs' h2 h2' -> (h1 = h2 <-> h1' = h2');
  cp_con_same : forall c ord c', In (c, ord) l -> In c' cs' -> ci_ty c' = ci_ty c ->
      exists cd', con_at b' (ci_handle c') = Some cd' /\ cd_id cd' = ct_id (ci_ty c) /\
        forall o', In o' (cd_objects cd') <-> exists o, In o ord /\ obj o o';
  cp_obj_from : forall o, (exists o', obj o o') <-> exists c ord, In (c, ord) l /\ In o ord;
  cp_obj_to : forall o', obj_at b' o' <> None <-> exists o, obj o o';
  cp_obj_one : forall o1 o1' o2 o2', obj o1 o1' -> obj o2 o2' -> (o1 = o2 <-> o1' = o2');
  cp_obj_same : forall c ord c' o o', In (c, ord) l -> In o ord -> In c' cs' -> ci_ty c' = ci_ty c -> obj o o' ->
      exists ob', obj_at b' o' = Some ob' /\ o_contract ob' = ci_handle c' /\
        o_channels ob' = [] /\ o_warp ob' = timewarp_default /\
        forall i t, nth_error (ct_states (ci_ty c)) i = Some t ->
          exists v v', field_of b c i o = Some v /\ field_of b' c' i o' = Some v' /\
            corresponds obj (same_contract l cs') (stored v) v'
}.

(** ** Proofs *)
Lemma stands_corresponds (A B A' B' : nat -> index -> Prop) fv v v' :
  stands_for A B fv v -> stands_for A' B' fv v' ->
  corresponds (fun o o' => exists j, A j o /\ A' j o') (fun h h' => exists n, B n h /\ B' n h') v v'.
Proof.
  intros H H'. destruct H; inversion H'; subst; try (apply co_other; discriminate); constructor; eauto.
Qed.
Lemma corresponds_impl (obj con obj' con' : index -> index -> Prop) v v' :
  (forall a b, obj a b -> obj' a b) -> (forall a b, con a b -> con' a b) ->
  corresponds obj con v v' -> corresponds obj' con' v v'.
Proof. intros H1 H2 H. destruct H; [apply co_object; auto|apply co_contract; auto|apply co_other; auto]. Qed.

Lemma describes_id C C' fc : describes C fc -> describes C' fc -> ct_id C = ct_id C'.
Proof. intros [t [-> _]] [t' [E _]]. injection E as H1 H2 _. destruct (ct_id C), (ct_id C'); cbn in *; congruence. Qed.

Lemma register_all_ok fb k : forall Cs cs d,
  builds fb k cs d -> NoDup (map ct_id Cs) ->
  (forall C, In C Cs -> layout_ok C /\ (exists n, selected fb C n) /\ ct_id C <> reserved_id /\
     forall c, In c cs -> ct_id (ci_ty c) <> ct_id C) ->
  exists cs' d', register_all d Cs = (Ok cs', d') /\ map ci_ty cs' = Cs /\ builds fb k (cs ++ cs') d'.
Proof.
  induction Cs as [|C Cs IH]; intros cs d Hb Hn H; cbn [register_all].
  - exists [], d. rewrite app_nil_r. auto.
  - cbn in Hn. inversion Hn as [|x y Hn1 Hn2]; subst x y.
    destruct (H C (or_introl eq_refl)) as [HL [Hs [Hnull Hid]]].
    destruct (builder_register d C) as [r d1] eqn:E.
    destruct (C34_register_selects_by_id_and_layout _ _ _ _ _ _ _ Hb HL E) as [H1 [H2 _]].
    destruct (proj2 H1 (conj Hs (conj Hid Hnull))) as [c ->]. destruct (H2 c eq_refl) as [Hty _].
    destruct (IH (cs ++ [c]) d1) as [cs' [d' [E1 [E2 E3]]]]; auto.
    { eapply builds_ok; eauto. }
    { intros C' HC'. destruct (H C' (or_intror HC')) as [G1 [G2 [G3 G4]]]. split; auto. split; auto. split; auto.
      intros c' Hc'. apply in_app_or in Hc'. destruct Hc' as [Hc'|[<-|[]]]; auto. rewrite Hty. intros Eid.
      apply Hn1. rewrite Eid. apply in_map; auto. }
    rewrite E1. exists (c :: cs'), d'. split; auto. split; [cbn; congruence|]. rewrite <- app_assoc in E3. exact E3.
Qed.

Lemma deserialize_all_ok fb k cs : forall ds tried d,
  cs_ok cs -> deserializes fb k cs tried tried d -> incl ds cs -> NoDup (tried ++ ds) -> fb_states fb <> None ->
  (forall c, In c ds -> ct_chans (ci_ty c) = [] /\ forall j, belongs fb [c] j -> ~ crashes fb j /\ fits fb cs c j) ->
  exists d', deserialize_all d ds = (Ok tt, d') /\ deserializes fb k cs (tried ++ ds) (tried ++ ds) d'.
Proof.
  induction ds as [|c ds IH]; intros tried d HL Hd Hi Hn Hst H; cbn [deserialize_all].
  - exists d. rewrite app_nil_r. auto.
  - destruct (H c (or_introl eq_refl)) as [Hch Hfit]. destruct (deserialize_objects d c) as [r d1] eqn:E.
    assert (r = Ok tt); [|subst r].
    { eapply C26_fitting_objects_are_accepted; eauto. apply Hi; left; auto.
      intros Hx. apply NoDup_remove_2 in Hn. apply Hn. apply in_or_app; auto. }
    destruct (IH (tried ++ [c]) d1) as [d' [E1 E2]]; auto.
    { eapply des_ok; eauto. apply Hi; left; auto. } { intros x Hx. apply Hi; right; auto. }
    { rewrite <- app_assoc. auto. } { intros c' Hc'. apply H; right; auto. }
    exists d'. split; auto. rewrite <- app_assoc in E2. exact E2.
Qed.

Lemma nodup_map_inj {A B} (f : A -> B) l : NoDup (map f l) -> forall x y, In x l -> In y l -> f x = f y -> x = y.
Proof.
  induction l as [|a l IH]; intros Hn x y Hx Hy E; [destruct Hx|]. cbn in Hn. inversion Hn as [|u w H1 H2]; subst.
  destruct Hx as [<-|Hx], Hy as [<-|Hy]; auto; exfalso; apply H1; [rewrite E|rewrite <- E]; apply in_map; auto.
Qed.

Theorem C25_round_trip_partial :
  forall k ops rs b l,
    crun (baseline_new k) ops = (rs, b) -> existsb is_panic rs = false -> all_disciplined rs_empty ops rs ->
    selection b (rfinal rs_empty ops rs) l -> intact b l -> plain l -> fits_format l -> closed b l ->
    (forall c ord, In (c, ord) l ->
       layout_ok (ci_ty c) /\ ct_chans (ci_ty c) = [] /\ ct_id (ci_ty c) <> reserved_id) ->
    exists sr, serialize_all b ser_new l = (Ok tt, sr) /\
    forall ordc ordo, Permutation ordc (hm_cstates sr) -> Permutation ordo (hm_ostates sr) ->
    exists fb, ser_finish b sr ordc ordo = Ok (Some fb) /\
    forall k' Cs, Permutation Cs (map (fun p => ci_ty (fst p)) l) ->
    exists d0 cs' d1, builder_new fb k' = Ok d0 /\ register_all d0 Cs = (Ok cs', d1) /\ map ci_ty cs' = Cs /\
    forall ds, Permutation ds cs' ->
    exists d2, deserialize_all (deser_new d1) ds = (Ok tt, d2) /\
    forall r, finishes d2 r ->
    exists b' obj, r = Ok b' /\ b_kind b' = k' /\ copy_of b l b' cs' obj.
Proof.
  intros k ops rs b l Hc Hp Hd Hsel Hint Hpl Hfit Hclo Hnice.
  destruct (C33_buffer_holds_exactly_the_selection k ops rs b l Hc Hp Hd Hsel Hint Hpl Hfit) as [sr [Esr Hfin]].
  exists sr. split; auto. intros ordc ordo Hpc Hpo. destruct (proj1 (Hfin ordc ordo Hpc Hpo) Hclo) as [fb [Efb Hen]].
  exists fb. split; auto. intros k' Cs HCs.
  destruct (rfinal_rrel _ _ _ _ _ _ _ (rrel_empty k) Hc Hp Hd) as [fs [fc Hr]]. set (s := rfinal rs_empty ops rs) in *.
  (* ids identify the entries of [l] *)
  assert (Hcdid : forall c ord, In (c, ord) l -> exists cd, get (b_contracts b) (ci_handle c) = Some cd /\ cd_id cd = ct_id (ci_ty c)).
  { intros c ord Hin. pose proof (sel_reg _ _ _ Hsel _ _ Hin) as Hcon. pose proof (rr_con _ _ _ _ Hr (ci_handle c)) as H.
    rewrite Hcon in H. destruct H as [cd [H1 [H2 _]]]. eauto. }
  assert (Hids : forall c1 ord1 c2 ord2, In (c1, ord1) l -> In (c2, ord2) l -> ct_id (ci_ty c1) = ct_id (ci_ty c2) -> (c1, ord1) = (c2, ord2)).
  { intros c1 ord1 c2 ord2 H1 H2 E. destruct (Hcdid _ _ H1) as [cd1 [G1 G2]]. destruct (Hcdid _ _ H2) as [cd2 [G3 G4]].
    apply (nodup_map_inj (fun p => ci_handle (fst p)) l (sel_once _ _ _ Hsel)); auto. cbn.
    apply (bi_ids _ (rr_inv _ _ _ _ Hr) _ _ _ _ G1 G3). congruence. }
  assert (Hnidl : NoDup (map (fun p => ct_id (ci_ty (fst p))) l)).
  { pose proof (NoDup_map_inv _ _ (sel_once _ _ _ Hsel)) as Hl. clear - Hl Hids.
    induction Hl as [|[c ord] l H1 H2 IH]; cbn; constructor.
    - intros Hx. apply in_map_iff in Hx. destruct Hx as [[c' ord'] [E Hx]]. cbn in E.
      pose proof (Hids c' ord' c ord (or_intror Hx) (or_introl eq_refl) E) as Heq. congruence.
    - apply IH. intros; eapply Hids; eauto; right; auto. }
  assert (Hnid : NoDup (map ct_id Cs)).
  { eapply Permutation_NoDup; [apply Permutation_sym, Permutation_map, HCs|]. rewrite map_map. exact Hnidl. }
  (* which serialized contract is selected *)
  destruct (en_contracts _ _ _ Hen) as [fcs [Efcs Hdesc]].
  assert (Hselected : forall n c ord, nth_error l n = Some (c, ord) -> selected fb (ci_ty c) n).
  { intros n c ord Hn. destruct (forall2_nth _ _ _ Hdesc _ _ Hn) as [fc0 [H1 H2]]. cbn in H2.
    exists fcs, fc0. split; auto. split; auto. split; auto. intros m fc' Hlt Hm Hdd.
    destruct (forall2_nth_r _ _ _ Hdesc _ _ Hm) as [[c' ord'] [H3 H4]]. cbn in H4.
    pose proof (describes_id _ _ _ Hdd H4) as Eid.
    assert (n = m); [|lia].
    eapply NoDup_nth_error; [exact Hnidl|rewrite map_length; apply nth_error_Some; congruence|].
    rewrite !nth_error_map, Hn, H3. cbn. congruence. }
  assert (Hselected' : forall c ord n, In (c, ord) l -> selected fb (ci_ty c) n -> nth_error l n = Some (c, ord)).
  { intros c ord n Hin Hs. apply In_nth_error in Hin. destruct Hin as [m Hm].
    rewrite (proj1 (C34_selection_is_unique _ _ _ _ _ Hs (Hselected _ _ _ Hm)) eq_refl). auto. }
  destruct (builder_new_ok fb k') as [d0 [_ [_ [_ [E0 _]]]]].
  destruct (register_all_ok fb k' Cs [] d0) as [cs' [d1 [E1 [Ety Hb]]]].
  { constructor; auto. } { auto. }
  { intros C HC. apply (Permutation_in _ HCs) in HC. apply in_map_iff in HC. destruct HC as [[c ord] [<- Hin]].
    destruct (Hnice _ _ Hin) as [G1 [G2 G3]]. split; auto. split; [|split; auto].
    apply In_nth_error in Hin. destruct Hin as [n Hn]. exists n. eapply Hselected; eauto. }
  cbn [app] in Hb. exists d0, cs', d1. split; auto. split; auto. split; auto. intros ds Hds.
  (* the registered contracts against [l] *)
  assert (Hto : forall c', In c' cs' -> exists c ord, In (c, ord) l /\ ci_ty c' = ci_ty c).
  { intros c' Hin. assert (Hx : In (ci_ty c') Cs) by (rewrite <- Ety; apply in_map; auto).
    apply (Permutation_in _ HCs) in Hx. apply in_map_iff in Hx. destruct Hx as [[c ord] [E Hx]]. exists c, ord. auto. }
  assert (Hfrom : forall c ord, In (c, ord) l -> exists c', In c' cs' /\ ci_ty c' = ci_ty c).
  { intros c ord Hin. assert (Hx : In (ci_ty c) Cs).
    { apply (Permutation_in _ (Permutation_sym HCs)). apply in_map_iff. exists (c, ord). auto. }
    rewrite <- Ety in Hx. apply in_map_iff in Hx. destruct Hx as [c' [E Hx]]. eauto. }
  assert (Hncs : NoDup (map (fun c => ct_id (ci_ty c)) cs')).
  { rewrite <- map_map, Ety. auto. }
  assert (HL : cs_ok cs').
  { apply Forall_forall. intros c' Hin. destruct (Hto _ Hin) as [c [ord [H1 H2]]]. rewrite H2. apply (Hnice _ _ H1). }
  (* the objects of the buffer *)
  assert (Hbel : forall cs c j, belongs fb [c] j -> In c cs' -> incl cs cs' -> exists n c0 o, nth_error (listing 0 l) j = Some (n, c0, o) /\ ci_ty c = ci_ty c0).
  { intros _ c j [c1 [idx [[<-|[]] [H1 H2]]]] Hin _. destruct (Hto _ Hin) as [c0 [ord [H3 H4]]].
    assert (Hbo : nth_error (listing 0 l) j <> None).
    { apply (en_objects _ _ _ Hen). unfold buf_contract in H2. destruct (buf_object fb j); discriminate. }
    destruct (nth_error (listing 0 l) j) as [[[n c2] o]|] eqn:Ej; [|tauto].
    destruct (en_object _ _ _ Hen _ _ _ _ Ej) as [G1 _]. rewrite H2 in G1. injection G1 as ->.
    rewrite H4 in H1. pose proof (Hselected' _ _ _ H3 H1) as Hn.
    destruct (listing_nth _ _ _ _ _ _ Ej) as [_ [ord2 [K1 K2]]]. rewrite Nat.sub_0_r, Hn in K1. injection K1 as -> ->.
    exists n, c2, o. split; auto. }
  assert (Hok : forall j n c o, nth_error (listing 0 l) j = Some (n, c, o) -> forall c', ci_ty c' = ci_ty c -> ~ crashes fb j /\ fits fb cs' c' j).
  { intros j n c o Hj c' Ect. destruct (en_object _ _ _ Hen _ _ _ _ Hj) as [G1 [G2 G3]]. split.
    - intros [m [Hm Hbad]]. apply In_nth_error in Hm. destruct Hm as [i Hi].
      assert (Hlt : i < length (ct_states (ci_ty c))) by (rewrite <- G2; apply nth_error_Some; congruence).
      destruct (nth_error (ct_states (ci_ty c)) i) as [t|] eqn:Et; [|apply nth_error_None in Et; lia].
      destruct (G3 _ _ Et) as [fv [v [K1 [K2 [K3 K4]]]]]. unfold buf_field in K1. rewrite Hi in K1. rewrite K1 in Hbad.
      destruct Hbad as [Hbad|[[g Hbad]|Hbad]]; try discriminate; injection Hbad as ->; inversion K4.
    - rewrite <- Ect in G2, G3. split; [auto|split; [|split]].
      + intros i t fv Ht Hf. destruct (G3 _ _ Ht) as [fv' [v [K1 [K2 [K3 K4]]]]]. rewrite Hf in K1. injection K1 as <-.
        apply stands_tag in K4. replace t with (prop_type (stored v)); auto. rewrite <- K3. destruct v as [p|p]; auto. destruct p; auto.
      + intros i m Hf.
        assert (Ht : exists t, nth_error (ct_states (ci_ty c')) i = Some t).
        { unfold buf_field in Hf. destruct (nth_error (buf_indices fb j) i) eqn:Ei; [|discriminate].
          assert (Hlt : i < length (ct_states (ci_ty c'))) by (rewrite <- G2; apply nth_error_Some; congruence).
          destruct (nth_error (ct_states (ci_ty c')) i) eqn:Et; [eauto|apply nth_error_None in Et; lia]. }
        destruct Ht as [t Ht]. destruct (G3 _ _ Ht) as [fv' [v [K1 [K2 [K3 K4]]]]]. rewrite Hf in K1. injection K1 as <-.
        inversion K4 as [| | | | | | | | | | | | |j' h Hcn]; subst. destruct Hcn as [c0 [ord0 [N1 N2]]].
        destruct (Hfrom c0 ord0) as [c'' [M1 M2]]; [eapply nth_error_In; eauto|]. exists c''. split; auto. rewrite M2. eapply Hselected; eauto.
      + intros i j' i' m oi H1 H2 _. eapply (en_unshared _ _ _ Hen); eauto. }
  assert (Hnds : NoDup ds).
  { eapply Permutation_NoDup; [apply Permutation_sym; exact Hds|]. eapply NoDup_map_inv; eauto. }
  destruct (deserialize_all_ok fb k' cs' ds [] (deser_new d1)) as [d2 [E2 Hdes]]; auto.
  { constructor; auto. } { intros x Hx. eapply Permutation_in; eauto. } { apply (en_states _ _ _ Hen). }
  { intros c' Hin. assert (Hin' : In c' cs') by (eapply Permutation_in; eauto).
    destruct (Hto _ Hin') as [c [ord [H1 H2]]]. split; [rewrite H2; apply (Hnice _ _ H1)|].
    intros j Hj. destruct (Hbel [] _ _ Hj Hin') as [n [c0 [o [K1 K2]]]]; [intros x []|]. eapply Hok; eauto. }
  cbn [app] in Hdes. exists d2. split; auto. intros r Hr2.
  assert (Hbl : forall j, belongs fb ds j <-> nth_error (listing 0 l) j <> None).
  { intros j. split.
    - intros [c' [idx [H1 [H2 H3]]]]. apply (en_objects _ _ _ Hen). unfold buf_contract in H3. destruct (buf_object fb j); discriminate.
    - destruct (nth_error (listing 0 l) j) as [[[n c] o]|] eqn:Ej; [|tauto]. intros _.
      destruct (en_object _ _ _ Hen _ _ _ _ Ej) as [G1 _]. destruct (listing_nth _ _ _ _ _ _ Ej) as [_ [ord [K1 K2]]]. rewrite Nat.sub_0_r in K1.
      destruct (Hfrom c ord) as [c' [M1 M2]]; [eapply nth_error_In; eauto|].
      exists c', n. split; [eapply Permutation_in; [apply Permutation_sym|]; eauto|]. split; auto. rewrite M2. eapply Hselected; eauto. }
  assert (Hrok : exists b', r = Ok b').
  { apply (proj2 (C26_finish_fails_iff_dangling _ _ _ _ _ _ HL Hdes Hr2)). intros j i oi Hj Hf. apply Hbl in Hj. apply Hbl.
    destruct (nth_error (listing 0 l) j) as [[[n c] o]|] eqn:Ej; [|tauto].
    destruct (en_object _ _ _ Hen _ _ _ _ Ej) as [G1 [G2 G3]].
    assert (Ht : exists t, nth_error (ct_states (ci_ty c)) i = Some t).
    { unfold buf_field in Hf. destruct (nth_error (buf_indices fb j) i) eqn:Ei; [|discriminate].
      assert (Hlt : i < length (ct_states (ci_ty c))) by (rewrite <- G2; apply nth_error_Some; congruence).
      destruct (nth_error (ct_states (ci_ty c)) i) eqn:Et; [eauto|apply nth_error_None in Et; lia]. }
    destruct Ht as [t Ht]. destruct (G3 _ _ Ht) as [fv' [v [K1 [K2 [K3 K4]]]]]. rewrite Hf in K1. injection K1 as <-.
    inversion K4 as [| | | | | | | | | | | |j' o' Ho'|]; subst. destruct Ho' as [n' [c' Ho']]. congruence. }
  destruct Hrok as [b' ->].
  destruct (C27_exactly_the_requested_objects _ _ _ _ _ _ HL Hdes Hr2) as [from [Hcf Hcov]].
  exists b', (fun o o' => exists j, listed l j o /\ from j o'). split; auto. split; [exact (cf_kind _ _ _ _ _ Hcf)|].
  assert (Hnobj : NoDup (map snd (listing 0 l))).
  { apply (listing_nodup _ _ _ _ Hr); [exact (sel_all _ _ _ (sel_part _ _ _ _ _ Hr Hsel) Hint Hpl)|exact (sel_once _ _ _ Hsel)]. }
  assert (Hlist1 : forall j1 j2 o1 o2, listed l j1 o1 -> listed l j2 o2 -> (j1 = j2 <-> o1 = o2)).
  { intros j1 j2 o1 o2 [n1 [c1 H1]] [n2 [c2 H2]]. split; [congruence|]. intros <-.
    eapply NoDup_nth_error; [exact Hnobj|rewrite map_length; apply nth_error_Some; congruence|]. rewrite !nth_error_map, H1, H2. reflexivity. }
  assert (Hcsi : forall c1 c2, In c1 cs' -> In c2 cs' -> ct_id (ci_ty c1) = ct_id (ci_ty c2) -> c1 = c2).
  { apply nodup_map_inj; auto. }
  (* handles of cs' are distinct since live contracts have distinct ids: use cf_contract *)
  assert (Hch : forall c1 c2, In c1 cs' -> In c2 cs' -> ci_handle c1 = ci_handle c2 -> c1 = c2).
  { intros c1 c2 H1 H2 E. destruct (cf_contract _ _ _ _ _ Hcf _ H1) as [cd1 [G1 [G2 _]]]. destruct (cf_contract _ _ _ _ _ Hcf _ H2) as [cd2 [G3 [G4 _]]].
    apply Hcsi; auto. congruence. }
  assert (Hlh : forall c1 ord1 c2 ord2, In (c1, ord1) l -> In (c2, ord2) l -> ci_handle c1 = ci_handle c2 -> (c1, ord1) = (c2, ord2)).
  { intros c1 ord1 c2 ord2 H1 H2 E. apply (nodup_map_inj (fun p => ci_handle (fst p)) l (sel_once _ _ _ Hsel)); auto. }
  assert (Hobjc : forall c ord c' o o', In (c, ord) l -> In o ord -> In c' cs' -> ci_ty c' = ci_ty c ->
     (exists j, listed l j o /\ from j o') -> exists j n ob, nth_error (listing 0 l) j = Some (n, c, o) /\ from j o' /\
       obj_at b' o' = Some ob /\ o_contract ob = ci_handle c' /\ o_warp ob = timewarp_default /\ o_channels ob = [] /\
       forall i t, nth_error (ct_states (ci_ty c)) i = Some t -> exists fv v,
        buf_field fb j i = Some fv /\ field_of b' c' i o' = Some v /\
        stands_for from (fun n h => exists c', In c' cs' /\ ci_handle c' = h /\ selected fb (ci_ty c') n) fv v).
  { intros c ord c' o o' Hin Ho Hc' Hty [j [[n [c0 Hj]] Hfr]].
    destruct (listing_nth _ _ _ _ _ _ Hj) as [_ [ord0 [K1 K2]]]. rewrite Nat.sub_0_r in K1.
    assert (Ec : c0 = c).
    { pose proof (sel_all _ _ _ (sel_part _ _ _ _ _ Hr Hsel) Hint Hpl) as Hall. rewrite Forall_forall in Hall.
      destruct (sel_live _ _ _ _ Hr _ _ (Hall _ (nth_error_In _ _ K1)) K2) as [_ [_ [_ [ob [A1 A2]]]]].
      destruct (sel_live _ _ _ _ Hr _ _ (Hall _ Hin) Ho) as [_ [_ [_ [ob' [A3 A4]]]]]. cbn in A2, A4.
      assert (ci_handle c0 = ci_handle c) by congruence.
      pose proof (Hlh _ _ _ _ (nth_error_In _ _ K1) Hin H). congruence. }
    subst c0. destruct (cf_object _ _ _ _ _ Hcf _ _ Hfr) as [c1 [idx [ob [B1 [B2 [B3 [B4 [B5 [B6 [B7 [B8 B9]]]]]]]]]]].
    destruct (en_object _ _ _ Hen _ _ _ _ Hj) as [G1 _]. rewrite G1 in B3. injection B3 as <-.
    assert (c1 = c').
    { apply Hcsi; auto. rewrite Hty. eapply (C34_selection_is_unique fb _ _ n n); eauto. }
    subst c1. exists j, n, ob. split; auto. split; auto. split; auto. split; auto. split; auto. split; auto.
    intros i t Ht. rewrite <- Hty in Ht. destruct (B9 _ _ Ht) as [fv [v [D1 [D2 [D3 [D4 D5]]]]]]. eauto. }
  constructor.
  - intros c ord Hin. destruct (Hfrom _ _ Hin) as [c' [H1 H2]]. exists (ci_handle c'), c, ord, c'. auto.
  - intros h'. rewrite (cf_contracts _ _ _ _ _ Hcf). split.
    + intros [c' [H1 H2]]. destruct (Hto _ H1) as [c [ord [H3 H4]]]. exists (ci_handle c), c, ord, c'. auto.
    + intros [h [c [ord [c' [H1 [H2 [H3 [H4 H5]]]]]]]]. eauto.
  - intros h1 h1' h2 h2' [c1 [ord1 [c1' [A1 [A2 [A3 [A4 A5]]]]]]] [c2 [ord2 [c2' [B1 [B2 [B3 [B4 B5]]]]]]].
    split; intros E.
    + subst. pose proof (Hlh _ _ _ _ A1 B1 E) as Ec. injection Ec as -> _. f_equal. apply Hcsi; auto. congruence.
    + subst. pose proof (Hch _ _ A2 B2 E) as Ec. subst. pose proof (Hids _ _ _ _ A1 B1) as Hx. rewrite <- A3, <- B3 in Hx.
      specialize (Hx eq_refl). congruence.
  - intros c ord c' Hin Hc' Hty. destruct (cf_contract _ _ _ _ _ Hcf _ Hc') as [cd [G1 [G2 G3]]].
    exists cd. split; auto. split; [congruence|]. intros o'. rewrite G3. split.
    + intros [ob [Ho Hco]]. assert (Hne : obj_at b' o' <> None) by congruence.
      apply (cf_objects _ _ _ _ _ Hcf) in Hne. destruct Hne as [j Hj]. assert (Hb2 : belongs fb ds j) by (apply Hcov; eauto).
      apply Hbl in Hb2. destruct (nth_error (listing 0 l) j) as [[[n c0] o]|] eqn:Ej; [|tauto].
      destruct (listing_nth _ _ _ _ _ _ Ej) as [_ [ord0 [K1 K2]]]. rewrite Nat.sub_0_r in K1. pose proof (nth_error_In _ _ K1) as Hin0.
      assert (Hob : exists j, listed l j o /\ from j o') by (exists j; split; auto; exists n, c0; auto).
      destruct (Hfrom _ _ Hin0) as [c0' [F1 F2]].
      destruct (Hobjc c0 ord0 c0' o o' Hin0 K2 F1 F2 Hob) as [j' [n' [ob' [D1 [D2 [D3 [D4 _]]]]]]].
      assert (c0' = c') by (apply Hch; auto; congruence). subst c0'.
      pose proof (Hids _ _ _ _ Hin0 Hin) as Hx. rewrite <- F2, <- Hty in Hx. specialize (Hx eq_refl). injection Hx as -> ->.
      exists o. split; auto.
    + intros [o [Ho Hob]]. destruct (Hobjc c ord c' o o' Hin Ho Hc' Hty Hob) as [j' [n' [ob' [D1 [D2 [D3 [D4 _]]]]]]]. eauto.
  - intros o. split.
    + intros [o' [j [[n [c Hj]] _]]]. destruct (listing_nth _ _ _ _ _ _ Hj) as [_ [ord [K1 K2]]]. exists c, ord. split; auto. eapply nth_error_In; eauto.
    + intros [c [ord [Hin Ho]]]. apply In_nth_error in Hin. destruct Hin as [n Hn]. pose proof (listing_in l 0 _ _ _ _ Hn Ho) as Hx.
      apply In_nth_error in Hx. destruct Hx as [j Hj]. assert (Hb2 : belongs fb ds j) by (apply Hbl; congruence).
      apply Hcov in Hb2. destruct Hb2 as [o' Ho']. exists o', j. split; auto. exists (0 + n), c. auto.
  - intros o'. rewrite (cf_objects _ _ _ _ _ Hcf). split.
    + intros [j Hj]. assert (Hb2 : belongs fb ds j) by (apply Hcov; eauto). apply Hbl in Hb2.
      destruct (nth_error (listing 0 l) j) as [[[n c] o]|] eqn:Ej; [|tauto]. exists o, j. split; auto. exists n, c. auto.
    + intros [o [j [_ Hj]]]. eauto.
  - intros o1 o1' o2 o2' [j1 [A1 A2]] [j2 [B1 B2]]. pose proof (Hlist1 _ _ _ _ A1 B1) as H1.
    pose proof (cf_one_to_one _ _ _ _ _ Hcf _ _ _ _ A2 B2) as H2. tauto.
  - intros c ord c' o o' Hin Ho Hc' Hty Hob.
    destruct (Hobjc c ord c' o o' Hin Ho Hc' Hty Hob) as [j [n [ob' [D1 [D2 [D3 [D4 [D5 [D6 D7]]]]]]]]].
    exists ob'. do 4 (split; auto). intros i t Ht. destruct (D7 _ _ Ht) as [fv [v' [F1 [F2 F3]]]].
    destruct (en_object _ _ _ Hen _ _ _ _ D1) as [_ [_ G3]]. destruct (G3 _ _ Ht) as [fv' [v [K1 [K2 [K3 K4]]]]].
    rewrite F1 in K1. injection K1 as <-. exists v, v'. split; auto. split; auto.
    eapply corresponds_impl; [| |exact (stands_corresponds _ _ _ _ _ _ _ K4 F3)]; auto.
    intros h h' [m [[c2 [ord2 [M1 M2]]] [c3 [N1 [N2 N3]]]]]. destruct (Hto _ N1) as [c4 [ord4 [P1 P2]]].
    rewrite P2 in N3. pose proof (Hselected' _ _ _ P1 N3) as Hx. rewrite M1 in Hx. injection Hx as -> ->.
    exists c4, ord4, c3. auto.
Qed.
Print Assumptions C25_round_trip_partial.

(** *** A concrete history that meets the hypotheses: two contracts, a cycle of
    two objects, a self reference, references to both contracts. *)
Definition rtN : contract_ty :=
  mkCty (mkCid "rt.node" (1%N, 0%N, 0%N)) [TPrim TU8; TPrim TObjectHandle; TPrim TF32; TPrim TContractDataHandle]
        ["a"; "next"; "f"; "c"] [] [].
Definition rtM : contract_ty :=
  mkCty (mkCid "rt.other" (0%N, 2%N, 0%N)) [TPrim TString; TPrim TObjectHandle] ["s"; "self"] [] [].
Definition rtI (n : nat) : index := mkIndex n 0%N.
Definition rtVals (a : Z) (o : nat) (f : Z) (c : nat) : list dynprop :=
  [PPrim (VU8 a); PPrim (VObjectHandle (rtI o)); PPrim (VF32 f); PPrim (VContractDataHandle (rtI c))].
Definition rtOps : list rop :=
  [RRegister rtM; RRegister rtN;
   RCreate rtN (rtI 1) (rtVals 7 0 1065353216 0) []; RCreate rtN (rtI 1) (rtVals 8 0 2147483648 1) [];
   RCreate rtM (rtI 0) [PPrim (VString "x"); PPrim (VObjectHandle (rtI 2))] [];
   RBind rtN (rtI 1) 1 (rtI 0); RSet (rtI 0) (PPrim (VObjectHandle (rtI 1)));
   RSetWarp (rtI 0) (mkWarp 5%Z 1%Z)].
Definition rtAns : list (outcome rret) :=
  [Ok (YHandle (rtI 0)); Ok (YHandle (rtI 1)); Ok (YHandle (rtI 0)); Ok (YHandle (rtI 1)); Ok (YHandle (rtI 2));
   Ok (YBound (TPrim TObjectHandle) (rtI 0)); Ok YUnit; Ok YUnit].
Definition rtL : list (contract_inst * list index) :=
  [(mkCinst rtN (rtI 1), [rtI 1; rtI 0]); (mkCinst rtM (rtI 0), [rtI 2])].
Definition rtB : baseline := snd (crun (baseline_new KMain) rtOps).

Example rt_history :
  crun (baseline_new KMain) rtOps = (rtAns, rtB) /\ existsb is_panic rtAns = false /\ all_disciplined rs_empty rtOps rtAns.
Proof.
  split; [|split; [reflexivity|]].
  - rewrite (surjective_pairing (crun (baseline_new KMain) rtOps)). unfold rtB. apply f_equal2; [vm_compute; reflexivity|reflexivity].
  - unfold rtOps, rtAns. cbn -[rtN rtM rtVals].
    repeat match goal with |- _ /\ _ => split end; auto;
      try (intros C' Hc; vm_compute in Hc; injection Hc as <-; reflexivity); try (eexists _, _; unfold is_bound; cbn; tauto).
Qed.

Example rt_hypotheses :
  selection rtB (rfinal rs_empty rtOps rtAns) rtL /\ intact rtB rtL /\ plain rtL /\ fits_format rtL /\ closed rtB rtL /\
  (forall c ord, In (c, ord) rtL ->
     layout_ok (ci_ty c) /\ ct_chans (ci_ty c) = [] /\ ct_id (ci_ty c) <> reserved_id).
Proof.
  split; [|split; [|split; [|split; [|split]]]].
  - constructor.
    + intros c ord [E|[E|[]]]; injection E as <- <-; vm_compute; reflexivity.
    + intros c ord [E|[E|[]]]; injection E as <- <-; eexists; (split; [vm_compute; reflexivity|]); cbn; [apply perm_swap|apply Permutation_refl].
    + cbn. repeat constructor; cbn; intuition discriminate.
  - intros c ord o [E|[E|[]]]; injection E as <- <-; intros H; cbn in H; repeat (destruct H as [<-|H]); try contradiction; vm_compute; discriminate.
  - intros c ord p [E|[E|[]]]; injection E as <- <-; cbn; intuition discriminate.
  - repeat split; vm_compute; try reflexivity; discriminate.
  - assert (Hl : forall o, In o [rtI 0; rtI 1; rtI 2] -> exists j, listed rtL j o).
    { intros o [<-|[<-|[<-|[]]]]; [exists 1|exists 0|exists 2]; eexists _, _; reflexivity. }
    assert (Hm : forall h, In h [rtI 0; rtI 1] -> exists m, contract_no rtL m h).
    { intros h [<-|[<-|[]]]; [exists 1|exists 0]; eexists _, _; split; reflexivity. }
    intros n c o i v Hin Hv.
    assert (Hcase : match v with PPrim (VObjectHandle o') => In o' [rtI 0; rtI 1; rtI 2] | PPrim (VContractDataHandle h) => In h [rtI 0; rtI 1] | _ => True end).
    { assert (Hlt : i < length (ct_states (ci_ty c))).
      { unfold field_of, ci_state_id in Hv. destruct (nth_error (ct_states (ci_ty c)) i) eqn:Et; [|discriminate]. apply nth_error_Some. congruence. }
      cbn in Hin. destruct Hin as [E|[E|[E|[]]]]; injection E as <- <- <-; cbn in Hlt;
        do 4 (destruct i as [|i]; [try lia; vm_compute in Hv; injection Hv as <-; cbn; auto 10|]); lia. }
    split.
    + intros o' ->. apply Hl. exact Hcase.
    + intros h ->. apply Hm. exact Hcase.
  - intros c ord [E|[E|[]]]; injection E as <- <-; (split; [reflexivity|split; [reflexivity|discriminate]]).
Qed.

(** The round trip computed: the buffer, and a field of a copy. *)
Definition ser_run (b : baseline) (l : list (contract_inst * list index)) : outcome (option fb_baseline) :=
  match serialize_all b ser_new l with
  | (Ok _, sr) => ser_finish b sr (hm_cstates sr) (hm_ostates sr)
  | (Err e, _) => Err e
  | (Panic, _) => Panic
  end.
Definition rtFb : fb_baseline :=
  mkFb (Some [mkFbContract (Some (mkFbCid (Some "rt.node") (1%N, 0%N, 0%N)))
                (Some (mkFbCstates (Some ["a"; "next"; "f"; "c"]) (Some [KU8; KObjectHandle; KF32; KContractDataHandle])));
              mkFbContract (Some (mkFbCid (Some "rt.other") (0%N, 2%N, 0%N)))
                (Some (mkFbCstates (Some ["s"; "self"]) (Some [KString; KObjectHandle])))])
       (Some [FU8 8; FObjectHandle 1; FF32 0; FContractDataHandle 0;
              FU8 7; FObjectHandle 0; FF32 1065353216; FContractDataHandle 1;
              FFbString (Some "x"); FObjectHandle 2])
       (Some [mkFbObject (Some 0%N) (Some [0%N; 1%N; 2%N; 3%N]); mkFbObject (Some 0%N) (Some [4%N; 5%N; 6%N; 7%N]);
              mkFbObject (Some 1%N) (Some [8%N; 9%N])]).
Example rt_buffer : ser_run rtB rtL = Ok (Some rtFb).
Proof. vm_compute. reflexivity. Qed.
Example rt_encodes : encodes rtB rtL rtFb.
Proof.
  destruct rt_history as [H1 [H2 H3]]. destruct rt_hypotheses as [G1 [G2 [G3 [G4 [G5 _]]]]].
  destruct (C33_buffer_holds_exactly_the_selection _ _ _ _ _ H1 H2 H3 G1 G2 G3 G4) as [sr [E Hf]].
  destruct (proj1 (Hf _ _ (Permutation_refl _) (Permutation_refl _)) G5) as [fb [Efb Hen]].
  assert (Er : ser_run rtB rtL = Ok (Some fb)) by (unfold ser_run; rewrite E; exact Efb).
  rewrite rt_buffer in Er. injection Er as <-. exact Hen.
Qed.

(** C25, refuted in full generality.  Not every value survives: -0.0 comes back as
    0.0, and an object's time warp is reset. *)
Theorem C25_negative_zero_and_warp_are_lost_refuted :
  exists b l c o i fb j,
    ser_run b l = Ok (Some fb) /\ encodes b l fb /\ listed l j o /\ In (c, [o; rtI 0]) l /\
    field_of b c i o = Some (PPrim (VF32 2147483648)) /\ buf_field fb j i = Some (FF32 0) /\
    (exists ob, obj_at b (rtI 0) = Some ob /\ o_warp ob <> timewarp_default).
Proof.
  exists rtB, rtL, (mkCinst rtN (rtI 1)), (rtI 1), 2, rtFb, 0.
  split; [exact rt_buffer|]. split; [exact rt_encodes|]. split; [eexists _, _; reflexivity|]. split; [left; reflexivity|].
  split; [vm_compute; reflexivity|]. split; [reflexivity|]. eexists. split; [vm_compute; reflexivity|]. discriminate.
Qed.
Print Assumptions C25_negative_zero_and_warp_are_lost_refuted.

(** A contract with channels is written but cannot be read back. *)
Definition rtCh : contract_ty :=
  mkCty (mkCid "rt.chan" (1%N, 0%N, 0%N)) [TPrim TU8] ["a"] [TPrim TU8] ["k"].
Definition rtB2 : baseline :=
  snd (crun (baseline_new KMain) [RRegister rtCh; RCreate rtCh (rtI 0) [PPrim (VU8 1)] [mkChannel (TPrim TU8) []]]).
Theorem C25_channel_contracts_cannot_be_read_back_refuted :
  exists fb cs,
    ser_run rtB2 [(mkCinst rtCh (rtI 0), [rtI 0])] = Ok (Some fb) /\
    fst (ds_builder fb [rtCh]) = Ok cs /\ fst (ds_deser fb [rtCh] cs) = Err EFieldCountMismatch.
Proof. eexists _, _. split; [vm_compute; reflexivity|]. split; vm_compute; reflexivity. Qed.
Print Assumptions C25_channel_contracts_cannot_be_read_back_refuted.

(** Serializing a contract twice: the result still contains the placeholder. *)
Theorem C33_serializing_twice_leaves_placeholders_refuted :
  ser_run rtB (rtL ++ [(mkCinst rtM (rtI 0), [rtI 2])]) = Ok None.
Proof. vm_compute. reflexivity. Qed.
Print Assumptions C33_serializing_twice_leaves_placeholders_refuted.

(** A removed object stays in the object set of its contract: without fields it is
    serialized as if it existed; with fields it makes every later [serialize] of the
    contract fail, and the failed call leaves a partial record behind. *)
Definition rtE : contract_ty := mkCty (mkCid "rt.empty" (1%N, 0%N, 0%N)) [] [] [] [].
Definition rtB3 : baseline :=
  snd (crun (baseline_new KMain)
         [RRegister rtE; RRegister rtM; RCreate rtE (rtI 0) [] []; RRemove rtE (rtI 0);
          RCreate rtM (rtI 1) [PPrim (VString "x"); PPrim (VObjectHandle (mkIndex 0 1))] [];
          RCreate rtM (rtI 1) [PPrim (VString "y"); PPrim (VObjectHandle (mkIndex 0 1))] [];
          RRemove rtM (mkIndex 1 1)]).
Theorem C33_removed_objects_are_not_skipped_refuted :
  (exists fb, obj_at rtB3 (rtI 0) = None /\
     (exists cd, con_at rtB3 (rtI 0) = Some cd /\ cd_objects cd = [rtI 0]) /\
     ser_run rtB3 [(mkCinst rtE (rtI 0), [rtI 0])] = Ok (Some fb) /\ buf_contract fb 0 = Some 0) /\
  (exists cd sr', con_at rtB3 (rtI 1) = Some cd /\ cd_objects cd = [mkIndex 0 1; mkIndex 1 1] /\
     obj_at rtB3 (mkIndex 0 1) <> None /\ obj_at rtB3 (mkIndex 1 1) = None /\
     serialize rtB3 ser_new (mkCinst rtM (rtI 1)) (cd_objects cd) = (Err EBindFailed, sr') /\
     length (sr_contracts sr') = 1 /\ length (sr_objects sr') = 1).
Proof.
  split.
  - eexists. split; [vm_compute; reflexivity|]. split; [eexists; split; vm_compute; reflexivity|].
    split; vm_compute; reflexivity.
  - eexists _, _. split; [vm_compute; reflexivity|]. split; [reflexivity|]. split; [vm_compute; discriminate|].
    split; [vm_compute; reflexivity|]. split; [vm_compute; reflexivity|]. split; reflexivity.
Qed.
Print Assumptions C33_removed_objects_are_not_skipped_refuted.

(** Hypotheses of the single-call theorems. *)
Example C33_single_call_example :
  fst (serialize rtB ser_new (mkCinst rtN (rtI 1)) [rtI 0; rtI 1]) = Ok tt /\
  fst (serialize rtB ser_new (mkCinst rtN (rtI 7)) []) = Err ENoContractForHandle /\
  fst (serialize exB ser_new (mkCinst (mkCty (mkCid "v" (0%N, 0%N, 0%N)) [TVec TU8] ["v"] [] []) exH) []) = Err EVectorsUnsupported /\
  ~ closed rtB [(mkCinst rtN (rtI 1), [rtI 0; rtI 1])] /\
  ser_run rtB [(mkCinst rtN (rtI 1), [rtI 0; rtI 1])] = Panic.
Proof.
  split; [vm_compute; reflexivity|]. split; [vm_compute; reflexivity|]. split; [vm_compute; reflexivity|].
  split; [|vm_compute; reflexivity].
  intros H. destruct (H 0 (mkCinst rtN (rtI 1)) (rtI 0) 3 (PPrim (VContractDataHandle (rtI 0)))) as [_ H2].
  - cbn. auto.
  - vm_compute. reflexivity.
  - destruct (H2 _ eq_refl) as [m [c [ord [E Eh]]]]. destruct m as [|[|m]]; cbn in E; try discriminate. injection E as <- <-. discriminate.
Qed.
