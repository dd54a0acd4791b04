(** C33, C25: serialization, and the round trip. *)
From Verif Require Import BaseProofs PropertiesTags PropertiesBaseline SerProofs.
Import Coq.Strings.String.StringSyntax.
Open Scope string_scope.
Open Scope list_scope.
Open Scope nat_scope.

(** ** Specification *)

(** A selection of contracts to serialize: live contracts, each with the type it
    was registered with, each once, each with an iteration order of its object
    set ([s] is the abstract state of [RecordSpec]). *)
Record selection (b : baseline) (s : rstate) (l : list (contract_inst * list index)) : Prop := {
  sel_reg : forall c ord, In (c, ord) l -> rs_con s (ci_handle c) = Some (ci_ty c);
  sel_ord : forall c ord, In (c, ord) l ->
              exists cd, con_at b (ci_handle c) = Some cd /\ Permutation ord (cd_objects cd);
  sel_once : NoDup (map (fun p => ci_handle (fst p)) l)
}.

(** No object was removed from the selected contracts; no field is a vector. *)
Definition intact (b : baseline) (l : list (contract_inst * list index)) : Prop :=
  forall c ord o, In (c, ord) l -> In o ord -> obj_at b o <> None.
Definition plain (l : list (contract_inst * list index)) : Prop :=
  forall c ord p, In (c, ord) l -> ~ In (TVec p) (ct_states (ci_ty c)).

(** The indices of the format are 16 and 32 bits wide. *)
Definition field_count (l : list (contract_inst * list index)) : nat :=
  list_sum (map (fun p : nat * contract_inst * index => length (ct_states (ci_ty (snd (fst p))))) (listing 0 l)).
Definition fits_format (l : list (contract_inst * list index)) : Prop :=
  (N.of_nat (length l) < 65536)%N /\ (N.of_nat (length (listing 0 l)) <= 4294967296)%N /\
  (N.of_nat (field_count l) <= 4294967296)%N.

Definition listed (l : list (contract_inst * list index)) (j : nat) (o : index) : Prop :=
  exists n c, nth_error (listing 0 l) j = Some (n, c, o).
Definition contract_no (l : list (contract_inst * list index)) (n : nat) (h : index) : Prop :=
  exists c ord, nth_error l n = Some (c, ord) /\ ci_handle c = h.

(** Every reference held by a selected object is to a selected object or contract. *)
Definition closed (b : baseline) (l : list (contract_inst * list index)) : Prop :=
  forall n c o i v, In (n, c, o) (listing 0 l) -> field_of b c i o = Some v ->
    (forall o', v = PPrim (VObjectHandle o') -> exists j, listed l j o') /\
    (forall h, v = PPrim (VContractDataHandle h) -> exists m, contract_no l m h).

(** The buffer [fb] contains exactly the contracts [l] and their objects. *)
Record encodes (b : baseline) (l : list (contract_inst * list index)) (fb : fb_baseline) : Prop := {
  en_contracts : exists fcs, fb_contracts fb = Some fcs /\
    Forall2 (fun p fc => describes (ci_ty (fst p)) fc) l fcs;
  en_objects : forall j, buf_object fb j <> None <-> nth_error (listing 0 l) j <> None;
  en_object : forall j n c o, nth_error (listing 0 l) j = Some (n, c, o) ->
    buf_contract fb j = Some n /\
    length (buf_indices fb j) = length (ct_states (ci_ty c)) /\
    forall i t, nth_error (ct_states (ci_ty c)) i = Some t ->
      exists fv v, buf_field fb j i = Some fv /\ field_of b c i o = Some v /\ prop_type v = t /\
        stands_for (listed l) (contract_no l) fv (stored v);
  en_states : fb_states fb <> None /\ forall n, buf_state fb n <> None <-> exists j i, nth_error (buf_indices fb j) i = Some n;
  en_unshared : forall j i j' i' n,
    nth_error (buf_indices fb j) i = Some n -> nth_error (buf_indices fb j') i' = Some n -> j = j' /\ i = i'
}.

(** ** Proofs *)

(** Some objects of each selected contract. *)
Record part (b : baseline) (s : rstate) (l : list (contract_inst * list index)) : Prop := {
  pt_reg : forall c ord, In (c, ord) l -> rs_con s (ci_handle c) = Some (ci_ty c);
  pt_ord : forall c ord, In (c, ord) l ->
             exists cd, con_at b (ci_handle c) = Some cd /\ incl ord (cd_objects cd) /\ NoDup ord;
  pt_once : NoDup (map (fun p => ci_handle (fst p)) l)
}.
Lemma sel_part b s fs fc l : rrel b s fs fc -> selection b s l -> part b s l.
Proof.
  intros Hr [H1 H2 H3]. constructor; auto. intros c ord Hin. destruct (H2 _ _ Hin) as [cd [Hcd Hp]]. exists cd. split; auto. split.
  - intros o Ho. eapply Permutation_in; eauto.
  - eapply Permutation_NoDup; [apply Permutation_sym; exact Hp|]. exact (bi_nodup _ (rr_inv _ _ _ _ Hr) _ _ Hcd).
Qed.

Section Buffer.
Variables (b : baseline) (s : rstate) (fs fc : index -> list index) (l : list (contract_inst * list index)).
Hypotheses (Hr : rrel b s fs fc) (Hsel : part b s l) (Hint : intact b l) (Hpl : plain l) (Hfit : fits_format l).

Lemma sel_all : Forall (sel_ok b s) l.
Proof.
  apply Forall_forall. intros [c ord] Hin. split; [exact (pt_reg _ _ _ Hsel _ _ Hin)|].
  split; [exact (pt_ord _ _ _ Hsel _ _ Hin)|]. split; [intros o; exact (Hint _ _ _ Hin)|]. intros p. exact (Hpl _ _ _ Hin).
Qed.

Lemma entry j n c o : nth_error (listing 0 l) j = Some (n, c, o) ->
  exists ord ro, nth_error l n = Some (c, ord) /\ In o ord /\ rs_con s (ci_handle c) = Some (ci_ty c) /\
    live_obj s o = Some ro /\ ro_contract ro = ci_handle c.
Proof.
  intros Hj. destruct (listing_nth _ _ _ _ _ _ Hj) as [_ [ord [H1 H2]]]. rewrite Nat.sub_0_r in H1.
  pose proof (nth_error_In _ _ H1) as Hin. pose proof sel_all as Hall. rewrite Forall_forall in Hall. specialize (Hall _ Hin).
  destruct (sel_live _ _ _ _ Hr _ _ Hall H2) as [ro [G1 [G2 _]]]. exists ord, ro. split; auto. split; auto.
  split; auto. exact (proj1 Hall).
Qed.

(** Everything about one field of one recorded object. *)
Lemma field_facts L j q i f :
  map cent_call L = l -> Forall (good_cent b) L ->
  nth_error (numb 0 L) j = Some q -> nth_error (so_fields q) i = Some f ->
  exists n c t ro, nth_error (listing 0 l) j = Some (n, c, so_obj q) /\ fst (fst q) = n /\
    nth_error (ct_states (ci_ty c)) i = Some t /\ reads b (so_obj q) f (mkPid t i (ci_handle c)) /\
    rs_con s (ci_handle c) = Some (ci_ty c) /\ live_obj s (so_obj q) = Some ro /\ ro_contract ro = ci_handle c /\
    nth_error (fs (so_obj q)) i = Some (sf_h f) /\ nth_error (ro_vals ro) i = Some (sf_v f) /\ prop_type (sf_v f) = t.
Proof.
  intros EL HL Hj Hi. pose proof (listing_numb b _ 0 HL) as H2. rewrite EL in H2.
  destruct (forall2_nth_r _ _ _ H2 _ _ Hj) as [[[n c] o] [Hp [P1 [P2 [P3 P4]]]]]. cbn [fst snd] in P1, P2, P3, P4. subst o.
  destruct (entry _ _ _ _ Hp) as [ord [ro [E1 [E2 [E3 [E4 E5]]]]]].
  destruct (forall2_nth _ _ _ P3 _ _ Hi) as [id [G1 G2]]. rewrite state_ids_nth in G1.
  destruct (nth_error (ct_states (ci_ty c)) i) as [t|] eqn:Et; [|discriminate]. cbn in G1. injection G1 as <-.
  destruct (reads_rec _ _ _ _ Hr _ _ _ _ _ _ _ E3 E4 E5 Et G2) as [K1 [K2 K3]].
  exists n, c, t, ro. auto 12.
Qed.

Lemma numb_objs L : map cent_call L = l -> Forall (good_cent b) L -> map so_obj (numb 0 L) = map snd (listing 0 l).
Proof.
  intros EL HL. pose proof (listing_numb b _ 0 HL) as H2. rewrite EL in H2.
  induction H2 as [|p q lp lq [_ [H _]] _ IH]; cbn; congruence.
Qed.

Lemma keys_nodup L : map cent_call L = l -> Forall (good_cent b) L -> NoDup (map key (fields_of (numb 0 L))).
Proof.
  intros EL HL. pose proof (listing_nodup _ _ _ _ Hr l 0 sel_all (pt_once _ _ _ Hsel)) as Hno.
  rewrite <- (numb_objs L EL HL) in Hno.
  apply NoDup_nth_error. intros k k' Hk Ekk. rewrite !map_nth in Ekk. rewrite map_length in Hk.
  destruct (nth_error (fields_of (numb 0 L)) k) as [f|] eqn:Ef; [|apply nth_error_None in Ef; lia].
  destruct (nth_error (fields_of (numb 0 L)) k') as [f'|] eqn:Ef'; [|discriminate]. cbn in Ekk. injection Ekk as E1 E2.
  destruct (off_cover _ _ _ Ef) as [j [q [i [A1 [A2 ->]]]]]. destruct (off_cover _ _ _ Ef') as [j' [q' [i' [B1 [B2 ->]]]]].
  destruct (field_facts L j q i f EL HL A1 A2) as [n [c [t [ro [C1 [C2 [C3 [[D1 [D2 [D3 D4]]] [C5 [C6 [C7 [C8 [C9 C10]]]]]]]]]]]]].
  destruct (field_facts L j' q' i' f' EL HL B1 B2) as [n' [c' [t' [ro' [C1' [C2' [C3' [[D1' [D2' [D3' D4']]] [C5' [C6' [C7' [C8' [C9' C10']]]]]]]]]]]]].
  cbn in D3, D3'. destruct (live_obj_some _ _ _ C6) as [Ho _]. destruct (live_obj_some _ _ _ C6') as [Ho' _].
  destruct (ce_inj _ _ _ _ (rr_st _ _ _ _ Hr) (so_obj q) (ro_vals ro) i (sf_v f) (so_obj q') (ro_vals ro') i' (sf_v f') (sf_h f)) as [Eo Ei];
    try (rewrite ?Ho, ?Ho'; reflexivity); auto; try congruence.
  subst i'. assert (j = j').
  { eapply NoDup_nth_error; [exact Hno| |].
    - apply nth_error_Some. rewrite map_nth, A1. discriminate.
    - rewrite !map_nth, A1, B1. cbn. congruence. }
  congruence.
Qed.

Lemma numb_fields L : map cent_call L = l -> Forall (good_cent b) L -> length (fields_of (numb 0 L)) = field_count l.
Proof.
  intros EL HL. pose proof (listing_numb b _ 0 HL) as H2. rewrite EL in H2. unfold field_count.
  induction H2 as [|p q lp lq [_ [_ [H _]]] _ IH]; cbn; auto. unfold fields_of in *. cbn. rewrite app_length, IH. f_equal.
  apply Forall2_length in H. cbn [fst snd] in H. rewrite H. clear. destruct p as [[n c] o]. cbn.
  apply Nat.le_antisymm.
  - apply Nat.nlt_ge. intros Hlt. assert (Hx : nth_error (state_ids (ci_ty c) (ci_handle c)) (length (ct_states (ci_ty c))) <> None) by (apply nth_error_Some; auto).
    apply Hx. rewrite state_ids_nth. rewrite (proj2 (nth_error_None _ _)) by lia. reflexivity.
  - apply Nat.nlt_ge. intros Hlt. apply nth_error_Some in Hlt. apply Hlt.
    assert (Hx : nth_error (state_ids (ci_ty c) (ci_handle c)) (length (state_ids (ci_ty c) (ci_handle c))) = None) by (apply nth_error_None; lia).
    rewrite state_ids_nth in Hx. destruct (nth_error (ct_states (ci_ty c)) _); [discriminate|auto].
Qed.

Lemma read_backs L : map cent_call L = l -> Forall (good_cent b) L -> Forall (read_back b) (fields_of (numb 0 L)).
Proof.
  intros EL HL. apply Forall_forall. intros f Hf. apply In_nth_error in Hf. destruct Hf as [k Hk].
  destruct (off_cover _ _ _ Hk) as [j [q [i [A1 [A2 ->]]]]].
  destruct (field_facts L j q i f EL HL A1 A2) as [n [c [t [ro [C1 [C2 [C3 [[D1 [D2 [D3 [D4 D5]]]] [C5 [C6 [C7 [C8 [C9 C10]]]]]]]]]]]]].
  cbn in D3, D5. split; [rewrite D3; auto|]. split; [congruence|].
  destruct (entry _ _ _ _ C1) as [ord [_ [E1 _]]]. apply nth_error_In in E1. apply nth_error_In in C3.
  destruct t as [p|p]; [exfalso; exact (Hpl _ _ _ E1 C3)|].
  exact (prim_typed b (mkPid (TPrim p) i (ci_handle c)) (sf_h f) (sf_v f) p (disc_typed _ _ _ _ Hr) eq_refl D5).
Qed.

Lemma listing_contracts L : map cent_call L = l -> map ci_handle (map fst L) = map (fun p => ci_handle (fst p)) l.
Proof. intros E. rewrite <- E, !map_map. reflexivity. Qed.

Lemma listed_obj L j o : map cent_call L = l -> Forall (good_cent b) L ->
  nth_error (map so_obj (numb 0 L)) j = Some o <-> listed l j o.
Proof.
  intros EL HL. rewrite (numb_objs L EL HL), nth_error_map. unfold listed.
  destruct (nth_error (listing 0 l) j) as [[[n c] o']|]; cbn; split.
  - intros E; injection E as <-. eauto.
  - intros [n' [c' E]]. congruence.
  - discriminate.
  - intros [n' [c' E]]. discriminate.
Qed.
Lemma contract_no_iff n h : nth_error (map (fun p => ci_handle (fst p)) l) n = Some h <-> contract_no l n h.
Proof.
  rewrite nth_error_map. unfold contract_no. destruct (nth_error l n) as [[c ord]|]; cbn; split.
  - intros E; injection E as <-. eauto.
  - intros [c' [ord' [E <-]]]. congruence.
  - discriminate.
  - intros [c' [ord' [E _]]]. discriminate.
Qed.

Lemma field_of_entry j n c o i t : nth_error (listing 0 l) j = Some (n, c, o) -> nth_error (ct_states (ci_ty c)) i = Some t ->
  exists ro, live_obj s o = Some ro /\ field_of b c i o = nth_error (ro_vals ro) i.
Proof.
  intros Hj Ht. destruct (entry _ _ _ _ Hj) as [ord [ro [E1 [E2 [E3 [E4 E5]]]]]].
  exists ro. split; auto. destruct c as [C h]. eapply rec_field; eauto.
Qed.

(** [closed] is what the serializer needs of its fields. *)
Lemma closed_refers L : map cent_call L = l -> Forall (good_cent b) L ->
  (closed b l <-> forall f, In f (fields_of (numb 0 L)) -> refers (map fst L) (numb 0 L) (sf_v f)).
Proof.
  intros EL HL. split.
  - intros Hc f Hf. apply In_nth_error in Hf. destruct Hf as [k Hk].
    destruct (off_cover _ _ _ Hk) as [j [q [i [A1 [A2 ->]]]]].
    destruct (field_facts L j q i f EL HL A1 A2) as [n [c [t [ro [C1 [C2 [C3 [_ [C5 [C6 [C7 [C8 [C9 C10]]]]]]]]]]]]].
    assert (Hfo : field_of b c i (so_obj q) = Some (sf_v f)).
    { rewrite <- C9. destruct c as [C h]. eapply rec_field; eauto. }
    destruct (Hc _ _ _ _ _ (nth_error_In _ _ C1) Hfo) as [H1 H2].
    destruct (sf_v f) as [p|p]; [|exact I]. destruct p; try exact I; cbn.
    + destruct (H1 _ eq_refl) as [j' Hj']. apply (listed_obj L) in Hj'; auto. eapply nth_error_In; eauto.
    + destruct (H2 _ eq_refl) as [m Hm]. apply contract_no_iff in Hm. rewrite <- (listing_contracts L EL) in Hm. eapply nth_error_In; eauto.
  - intros H n c o i v Hin Hv. apply In_nth_error in Hin. destruct Hin as [j Hj].
    pose proof (listing_numb b _ 0 HL) as H2. rewrite EL in H2.
    destruct (forall2_nth _ _ _ H2 _ _ Hj) as [q [Hq [P1 [P2 [P3 P4]]]]]. cbn [fst snd] in P1, P2, P3, P4. subst o.
    assert (Ht : exists t, nth_error (ct_states (ci_ty c)) i = Some t).
    { unfold field_of, ci_state_id in Hv. destruct (nth_error (ct_states (ci_ty c)) i); [eauto|discriminate]. }
    destruct Ht as [t Ht].
    destruct (forall2_nth_r _ _ _ P3 i (mkPid t i (ci_handle c))) as [f [Hf Hrd]].
    { rewrite state_ids_nth, Ht. reflexivity. }
    destruct (field_facts L j q i f EL HL Hq Hf) as [n' [c' [t' [ro [C1 [C2 [C3 [_ [C5 [C6 [C7 [C8 [C9 C10]]]]]]]]]]]]].
    rewrite Hj in C1. injection C1 as <- <-.
    assert (Hfo : field_of b c i (so_obj q) = Some (sf_v f)).
    { rewrite <- C9. destruct c as [C h]. eapply rec_field; eauto. }
    rewrite Hv in Hfo. injection Hfo as ->.
    specialize (H f (nth_error_In _ _ (off_nth _ _ _ _ _ Hq Hf))). split.
    + intros o' E. rewrite E in H. cbn in H. apply In_nth_error in H. destruct H as [j' H]. exists j'. apply (listed_obj L); auto.
    + intros h E. rewrite E in H. cbn in H. apply In_nth_error in H. destruct H as [m H].
      exists m. apply contract_no_iff. rewrite <- (listing_contracts L EL). auto.
Qed.
End Buffer.

Lemma nth_seq k : forall n i, nth_error (seq k n) i = if Nat.ltb i n then Some (k + i) else None.
Proof.
  intros n. revert k. induction n as [|n IH]; intros k [|i]; cbn [seq nth_error]; auto.
  - rewrite Nat.add_0_r. reflexivity.
  - rewrite IH. destruct (Nat.ltb_spec i n), (Nat.ltb_spec (S i) (S n)); try lia; auto. f_equal. lia.
Qed.

Lemma buffer_of_part b s fs fc l :
  rrel b s fs fc -> part b s l -> intact b l -> plain l -> fits_format l ->
  exists sr, serialize_all b ser_new l = (Ok tt, sr) /\
    forall ordc ordo, Permutation ordc (hm_cstates sr) -> Permutation ordo (hm_ostates sr) ->
      (closed b l -> exists fb, ser_finish b sr ordc ordo = Ok (Some fb) /\ encodes b l fb) /\
      (~ closed b l -> ser_finish b sr ordc ordo = Panic).
Proof.
  intros Hr Hsel Hint Hpl Hfit.
  pose proof (sel_all _ _ _ Hsel Hint Hpl) as Hall.
  destruct (build_cents _ _ _ _ Hr l Hall) as [L [EL HL]].
  assert (Hno : NoDup (map so_obj (numb 0 L))).
  { rewrite (numb_objs b l L EL HL). apply (listing_nodup _ _ _ _ Hr); auto. exact (pt_once _ _ _ Hsel). }
  assert (Hnk : NoDup (map key (fields_of (numb 0 L)))) by (eapply keys_nodup; eauto).
  assert (Hnh : NoDup (map ci_handle (map fst L))).
  { rewrite (listing_contracts l L EL). exact (pt_once _ _ _ Hsel). }
  assert (Hlen : length (map fst L) = length l) by (rewrite map_length, <- EL, map_length; auto).
  destruct Hfit as [Hf1 [Hf2 Hf3]].
  destruct (sinv_serialize_all b L ser_new [] [] sinv_new HL) as [sr [E1 Hsr]]; auto.
  { replace (length (@nil contract_inst) + length L) with (length l); auto. rewrite map_length in Hlen. cbn. auto. }
  cbn [app length] in Hsr. rewrite EL in E1. exists sr. split; auto. intros ordc ordo Hpc Hpo.
  assert (Hrb : Forall (read_back b) (fields_of (numb 0 L))) by (eapply read_backs; eauto).
  assert (Hcl : closed b l <-> forall f, In f (fields_of (numb 0 L)) -> refers (map fst L) (numb 0 L) (sf_v f))
    by (eapply closed_refers; eauto).
  assert (Hlo : length (numb 0 L) = length (listing 0 l)).
  { pose proof (f_equal (@length _) (numb_objs b l L EL HL)) as H. rewrite !map_length in H. auto. }
  split.
  2:{ intros Hnc. destruct (ser_finish b sr ordc ordo) as [r|e|] eqn:E; auto.
      - exfalso. apply Hnc. apply Hcl. eapply finish_inv; eauto.
      - destruct (finish_no_err _ _ _ _ _ E). }
  intros Hclo. destruct (finish_ok b sr (map fst L) (numb 0 L) ordc ordo) as [states [E2 [Ls Hst]]]; auto.
  { rewrite Hlen. auto. } { rewrite Hlo. auto. } { apply Hcl; auto. }
  set (fb := mkFb _ _ _) in E2. exists fb. split; auto.
  assert (Hbo : forall j, buf_object fb j = option_map (fun p : sobj => mkFbObject (Some (N.of_nat (fst (fst p))))
     (Some (map as_u32 (seq (off (numb 0 L) j) (length (so_fields p)))))) (nth_error (numb 0 L) j)).
  { intros j. unfold buf_object, fb. cbn [fb_objects]. rewrite tables_nth. reflexivity. }
  assert (Hind : forall j i n, nth_error (buf_indices fb j) i = Some n <->
     exists q f, nth_error (numb 0 L) j = Some q /\ nth_error (so_fields q) i = Some f /\ n = off (numb 0 L) j + i).
  { intros j i n. unfold buf_indices. rewrite Hbo. destruct (nth_error (numb 0 L) j) as [q|] eqn:Eq.
    - cbn [option_map fo_states]. rewrite !map_nth, nth_seq.
      destruct (Nat.ltb_spec i (length (so_fields q))) as [Hi|Hi]; cbn [option_map].
      + destruct (nth_error (so_fields q) i) as [f|] eqn:Ef; [|apply nth_error_None in Ef; lia].
        assert (Hk : (N.of_nat (off (numb 0 L) j + i) < 4294967296)%N).
        { pose proof (off_nth _ _ _ _ _ Eq Ef) as Hx.
          assert (Hlt : off (numb 0 L) j + i < length (fields_of (numb 0 L))) by (apply nth_error_Some; congruence).
          rewrite (numb_fields b l L EL HL) in Hlt. lia. }
        rewrite (as_u32_small _ Hk). split.
        * intros E; injection E as <-. eauto.
        * intros [q' [f' [A1 [A2 ->]]]]. reflexivity.
      + split; [discriminate|]. intros [q' [f' [A1 [A2 _]]]]. injection A1 as <-. exfalso.
        assert (i < length (so_fields q)) by (apply nth_error_Some; congruence). lia.
    - cbn. split; [destruct i; discriminate|]. intros [q [f [A1 _]]]. discriminate. }
  pose proof (listing_numb b _ 0 HL) as H2. rewrite EL in H2.
  constructor.
  - exists (sr_contracts sr). split; [reflexivity|]. rewrite <- EL. pose proof (si_con _ _ _ Hsr) as HS.
    revert HS. clear. generalize (sr_contracts sr). induction L as [|e L IH]; intros m H; inversion H; subst; cbn; constructor; auto.
  - intros j. rewrite Hbo. destruct (nth_error (listing 0 l) j) as [p|] eqn:Ep.
    + destruct (forall2_nth _ _ _ H2 _ _ Ep) as [q [Hq _]]. rewrite Hq. split; discriminate.
    + rewrite (proj2 (nth_error_None (numb 0 L) j)); [tauto|]. rewrite Hlo. apply nth_error_None; auto.
  - intros j n c o Hj. destruct (forall2_nth _ _ _ H2 _ _ Hj) as [q [Hq [P1 [P2 [P3 P4]]]]]. cbn [fst snd] in P1, P2, P3, P4. subst o.
    split; [unfold buf_contract; rewrite Hbo, Hq; cbn; rewrite Nat2N.id; congruence|]. split.
    { unfold buf_indices. rewrite Hbo, Hq. cbn. rewrite !map_length, seq_length.
      rewrite (Forall2_length _ _ _ P3). clear. rewrite <- (map_length pid_type). f_equal.
      apply nth_error_ext. intros i. rewrite nth_error_map, state_ids_nth. destruct (nth_error (ct_states (ci_ty c)) i); reflexivity. }
    intros i t Ht. destruct (forall2_nth_r _ _ _ P3 i (mkPid t i (ci_handle c))) as [f [Hf Hrd]].
    { rewrite state_ids_nth, Ht. reflexivity. }
    destruct (field_facts b s fs fc l Hr Hsel Hint Hpl L j q i f EL HL Hq Hf) as [n' [c' [t' [ro [C1 [C2 [C3 [_ [C5 [C6 [C7 [C8 [C9 C10]]]]]]]]]]]]].
    rewrite Hj in C1. injection C1 as <- <-.
    destruct (Hst _ _ (off_nth _ _ _ _ _ Hq Hf)) as [fv [S1 S2]].
    exists fv, (sf_v f). split.
    { unfold buf_field. rewrite (proj2 (Hind j i (off (numb 0 L) j + i))) by eauto. exact S1. }
    split. { rewrite <- C9. destruct c as [C h]. eapply rec_field; eauto. }
    split; [congruence|]. eapply stands_for_impl; [| |exact S2].
    + intros j' o' Hx. eapply (proj1 (listed_obj b l L j' o' EL HL)); auto.
    + intros m h Hx. apply contract_no_iff. rewrite <- (listing_contracts l L EL). exact Hx.
  - split; [discriminate|]. intros n. unfold buf_state, fb. cbn [fb_states]. split.
    + intros Hn. apply nth_error_Some in Hn. rewrite Ls in Hn. apply nth_error_Some in Hn.
      destruct (nth_error (fields_of (numb 0 L)) n) as [f|] eqn:Ef; [|congruence].
      destruct (off_cover _ _ _ Ef) as [j [q [i [A1 [A2 A3]]]]]. exists j, i. apply Hind. eauto.
    + intros [j [i Hn]]. apply Hind in Hn. destruct Hn as [q [f [A1 [A2 ->]]]].
      apply nth_error_Some. rewrite Ls. apply nth_error_Some. rewrite (off_nth _ _ _ _ _ A1 A2). discriminate.
  - intros j i j' i' n H3 H4. apply Hind in H3, H4. destruct H3 as [q [f [A1 [A2 A3]]]]. destruct H4 as [q' [f' [B1 [B2 B3]]]].
    eapply off_inj; eauto; [apply nth_error_Some; congruence|apply nth_error_Some; congruence|congruence].
Qed.

Theorem C33_buffer_holds_exactly_the_selection :
  forall k ops rs b l,
    crun (baseline_new k) ops = (rs, b) -> existsb is_panic rs = false -> all_disciplined rs_empty ops rs ->
    selection b (rfinal rs_empty ops rs) l -> intact b l -> plain l -> fits_format l ->
    exists sr, serialize_all b ser_new l = (Ok tt, sr) /\
      forall ordc ordo, Permutation ordc (hm_cstates sr) -> Permutation ordo (hm_ostates sr) ->
        (closed b l -> exists fb, ser_finish b sr ordc ordo = Ok (Some fb) /\ encodes b l fb) /\
        (~ closed b l -> ser_finish b sr ordc ordo = Panic).
Proof.
  intros k ops rs b l Hc Hp Hd Hsel Hint Hpl Hfit.
  destruct (rfinal_rrel _ _ _ _ _ _ _ (rrel_empty k) Hc Hp Hd) as [fs [fc Hr]].
  exact (buffer_of_part _ _ _ _ _ Hr (sel_part _ _ _ _ _ Hr Hsel) Hint Hpl Hfit).
Qed.
Print Assumptions C33_buffer_holds_exactly_the_selection.

(** *** One call of [serialize], from any state of the serializer *)
Lemma field_resolves b c i o id : nth_error (state_ids (ci_ty c) (ci_handle c)) i = Some id ->
  field_of b c i o <> None <-> resolves b o id.
Proof.
  rewrite state_ids_nth. unfold field_of, ci_state_id. destruct (nth_error (ct_states (ci_ty c)) i) as [t|]; [|discriminate].
  cbn [option_map]. intros E; injection E as <-. unfold dyn_id_new, resolves, reads. cbn [pid_type pid_idx].
  destruct (bind_state b (mkPid t i (ci_handle c)) o) as [h|e|] eqn:Eb.
  - unfold st_at. destruct (state_get b t h) as [v|e|] eqn:Eg.
    + split; [|discriminate]. intros _. exists (mkSf o i t h v). cbn. auto 10.
    + split; [tauto|]. intros [f [_ [_ [_ [H1 H2]]]]]. congruence.
    + split; [tauto|]. intros [f [_ [_ [_ [H1 H2]]]]]. congruence.
  - split; [tauto|]. intros [f [_ [_ [_ [H1 H2]]]]]. congruence.
  - split; [tauto|]. intros [f [_ [_ [_ [H1 H2]]]]]. congruence.
Qed.

(** [serialize] panics exactly when it is given the 65536th contract; otherwise it
    succeeds exactly if the contract is live, has no vector field, and every field
    of every object in its set can be read. *)
Theorem C33_serialize_succeeds_iff :
  forall b sr c ord r sr',
    reach b -> serialize b sr c ord = (r, sr') ->
    let full := (N.of_nat (S (length (sr_contracts sr))) mod 65536 = 0)%N in
    let live := con_at b (ci_handle c) <> None in
    let noVec := forall p, ~ In (TVec p) (ct_states (ci_ty c)) in
    (r = Panic <-> full /\ live /\ noVec) /\
    (~ full -> r = Ok tt <-> live /\ noVec /\
       forall o i, In o ord -> i < length (ct_states (ci_ty c)) -> field_of b c i o <> None).
Proof.
  intros b sr c ord r sr' Hb E full live noVec.
  assert (Ht : typed_states b).
  { intros t h v H. apply state_get_ok in H. exact (bi_st_ty _ (reach_binv _ Hb) _ _ _ H). }
  unfold serialize in E.
  assert (Hlive : forall cd, contract_data_of b (ci_handle c) = Ok cd -> live).
  { unfold contract_data_of, live, con_at. intros cd. destruct (get (b_contracts b) (ci_handle c)); discriminate. }
  destruct (contract_data_of b (ci_handle c)) as [cd|e|] eqn:Ec.
  2:{ injection E as <- <-. assert (~ live). { unfold live, con_at, contract_data_of in *. destruct (get (b_contracts b) (ci_handle c)); [discriminate|tauto]. }
      split; [split; [discriminate|tauto]|]. intros _. split; [discriminate|tauto]. }
  2:{ unfold contract_data_of in Ec. destruct (get (b_contracts b) (ci_handle c)); discriminate. }
  specialize (Hlive _ eq_refl).
  pose proof (ser_contract_cases (ci_ty c)) as Hc. destruct (ser_contract (ci_ty c)) as [fc|e|]; [| |tauto].
  2:{ injection E as <- <-. split; [split; [discriminate|]|intros _; split; [discriminate|]]; unfold no_vec, noVec in *; tauto. }
  destruct Hc as [Hnv _]. assert (Hfull : N.eqb (as_u16 (length (sr_contracts sr ++ [fc]))) 0 = true <-> full).
  { rewrite N.eqb_eq. unfold as_u16, full. rewrite app_length, Nat.add_1_r. tauto. }
  destruct (N.eqb (as_u16 (length (sr_contracts sr ++ [fc]))) 0).
  { injection E as <- <-. assert (full) by (apply Hfull; auto). split; [split; auto|tauto]. }
  assert (Hnf : ~ full) by (intros H; apply Hfull in H; discriminate).
  pose proof (ser_objects_cases b c (as_u16 (length (sr_contracts sr ++ [fc])) - 1) Ht (no_vec_ids _ (ci_handle c) Hnv) ord) as Hso.
  match type of E with ser_objects _ _ _ ?x _ = _ => specialize (Hso x) end. rewrite E in Hso.
  destruct r as [[]|e|]; [| |tauto].
  - split; [split; [discriminate|tauto]|]. intros _. split; [intros _|auto]. split; auto. split; auto.
    intros o i Ho Hi. destruct Hso as [ps [H1 H2]]. rewrite <- H1 in Ho. apply in_map_iff in Ho. destruct Ho as [p [<- Hp]].
    rewrite Forall_forall in H2. destruct (H2 _ Hp) as [H3 _].
    destruct (nth_error (ct_states (ci_ty c)) i) as [t|] eqn:Et; [|apply nth_error_None in Et; lia].
    assert (Hid : nth_error (state_ids (ci_ty c) (ci_handle c)) i = Some (mkPid t i (ci_handle c))) by (rewrite state_ids_nth, Et; reflexivity).
    apply (field_resolves _ _ _ _ _ Hid). destruct (forall2_nth_r _ _ _ H3 _ _ Hid) as [f [_ Hf]]. exists f. auto.
  - split; [split; [discriminate|tauto]|]. intros _. split; [discriminate|]. intros [_ [_ H]]. exfalso.
    destruct Hso as [o [id [H1 [H2 H3]]]]. apply In_nth_error in H2. destruct H2 as [i Hi]. apply H3.
    apply (field_resolves _ _ _ _ _ Hi). apply H; auto. rewrite state_ids_nth in Hi.
    destruct (nth_error (ct_states (ci_ty c)) i) eqn:Et; [|discriminate]. apply nth_error_Some. congruence.
Qed.
Print Assumptions C33_serialize_succeeds_iff.

(** A successful call appends exactly: the contract's description, one object per
    listed handle, in the listed order, and one state per field, in order; what was
    there stays. *)
Theorem C33_serialize_appends :
  forall b sr c ord sr',
    reach b -> serialize b sr c ord = (Ok tt, sr') ->
    exists fc objs vals,
      sr_contracts sr' = sr_contracts sr ++ [fc] /\ describes (ci_ty c) fc /\
      sr_objects sr' = sr_objects sr ++ objs /\ length objs = length ord /\
      sr_states sr' = sr_states sr ++ vals /\ length vals = length ord * length (ct_states (ci_ty c)) /\
      forall j o, nth_error ord j = Some o ->
        let base := j * length (ct_states (ci_ty c)) in
        nth_error objs j = Some (mkFbObject (Some (as_u16 (S (length (sr_contracts sr))) - 1)%N)
          (Some (map (fun i => as_u32 (length (sr_states sr) + base + i)) (seq 0 (length (ct_states (ci_ty c))))))) /\
        forall i v, field_of b c i o = Some v ->
          match nth_error vals (base + i) with
          | Some (Some fv) => stands_for (fun _ _ => False) (fun _ _ => False) fv (stored v)
          | Some None => exists h, v = PPrim (VObjectHandle h) \/ v = PPrim (VContractDataHandle h)
          | None => False
          end.
Proof.
  intros b sr c ord sr' Hb E.
  assert (Ht : typed_states b).
  { intros t h v H. apply state_get_ok in H. exact (bi_st_ty _ (reach_binv _ Hb) _ _ _ H). }
  unfold serialize in E. destruct (contract_data_of b (ci_handle c)); try discriminate.
  pose proof (ser_contract_cases (ci_ty c)) as Hc. destruct (ser_contract (ci_ty c)) as [fc|e|]; try discriminate.
  destruct Hc as [Hnv Hdesc]. destruct (N.eqb _ 0); try discriminate.
  rewrite app_length, Nat.add_1_r in E. set (cidx := (as_u16 (S (length (sr_contracts sr))) - 1)%N) in *.
  match type of E with ser_objects _ _ _ ?x _ = _ => set (s1 := x) in * end.
  pose proof (ser_objects_cases b c cidx Ht (no_vec_ids _ (ci_handle c) Hnv) ord s1) as Hso. rewrite E in Hso.
  destruct Hso as [ps [<- Hps]]. rewrite (ser_objects_ok b c cidx ps s1 Hps) in E. injection E as <-.
  set (nf := length (ct_states (ci_ty c))).
  assert (Hids : length (state_ids (ci_ty c) (ci_handle c)) = nf).
  { clear. unfold nf. rewrite <- (map_length pid_type). f_equal.
    apply nth_error_ext. intros i. rewrite nth_error_map, state_ids_nth. destruct (nth_error (ct_states (ci_ty c)) i); reflexivity. }
  assert (Hgen : forall ps s1, Forall (read_object b c) ps ->
    exists objs vals,
      sr_contracts (fold_left (add_object cidx) ps s1) = sr_contracts s1 /\
      sr_objects (fold_left (add_object cidx) ps s1) = sr_objects s1 ++ objs /\ length objs = length ps /\
      sr_states (fold_left (add_object cidx) ps s1) = sr_states s1 ++ vals /\ length vals = length ps * nf /\
      forall j p, nth_error ps j = Some p ->
        nth_error objs j = Some (mkFbObject (Some cidx) (Some (map (fun i => as_u32 (length (sr_states s1) + j * nf + i)) (seq 0 nf)))) /\
        forall i f, nth_error (snd p) i = Some f -> nth_error vals (j * nf + i) = Some (enc (sf_v f))).
  { clear - Hids. induction ps as [|p ps IH]; intros s1 H.
    - exists [], []. cbn. rewrite !app_nil_r. do 5 (split; [reflexivity|]). intros [|j] q Hq; discriminate.
    - inversion H as [|x y [H1 H2] H3]; subst x y. cbn [fold_left].
      destruct (IH (add_object cidx s1 p) H3) as [objs [vals [A1 [A2 [A3 [A4 [A5 A6]]]]]]].
      destruct (add_fields_frame (snd p) s1) as [G1 [G2 [G3 [G4 G5]]]].
      pose proof (Forall2_length _ _ _ H1) as HL. rewrite Hids in HL.
      exists (mkFbObject (Some cidx) (Some (map as_u32 (seq (length (sr_states s1)) nf))) :: objs),
             (map (fun f => enc (sf_v f)) (snd p) ++ vals).
      assert (K : sr_contracts (add_object cidx s1 p) = sr_contracts s1 /\
        sr_objects (add_object cidx s1 p) = sr_objects s1 ++ [mkFbObject (Some cidx) (Some (map as_u32 (seq (length (sr_states s1)) nf)))] /\
        sr_states (add_object cidx s1 p) = sr_states s1 ++ map (fun f => enc (sf_v f)) (snd p)).
      { unfold add_object. cbn [sr_contracts sr_objects sr_states]. rewrite G1, G2, G5, HL. auto. }
      destruct K as [K1 [K2 K3]]. rewrite K1 in A1. split; auto.
      rewrite K2, <- app_assoc in A2. split; auto.
      split; [cbn; congruence|].
      rewrite K3, <- app_assoc in A4. split; auto.
      split; [rewrite app_length, map_length, A5, HL; cbn; lia|].
      intros [|j] q Hq; cbn in Hq.
      + injection Hq as <-. split.
        * cbn [nth_error Nat.mul]. rewrite Nat.add_0_r. do 3 f_equal. clear.
          generalize (length (sr_states s1)). intros m. replace (seq m nf) with (map (fun i => m + i) (seq 0 nf)); [apply map_map|].
          apply nth_error_ext. intros i. rewrite nth_error_map, !nth_seq. destruct (Nat.ltb i nf); reflexivity.
        * intros i f Hf. cbn. rewrite nth_error_app1 by (rewrite map_length; apply nth_error_Some; congruence).
          rewrite nth_error_map, Hf. reflexivity.
      + destruct (A6 _ _ Hq) as [B1 B2]. cbn [nth_error]. split.
        * rewrite B1. do 3 f_equal. rewrite K3, app_length, map_length, HL.
          apply map_ext. intros i. f_equal. lia.
        * intros i f Hf. rewrite nth_error_app2 by (rewrite map_length; lia). rewrite map_length, HL.
          replace (S j * nf + i - nf) with (j * nf + i) by lia. auto. }
  destruct (Hgen ps s1 Hps) as [objs [vals [A1 [A2 [A3 [A4 [A5 A6]]]]]]].
  exists fc, objs, vals. rewrite !map_length. split; auto. split; auto. split; auto. split; auto. split; auto. split; auto.
  intros j o Ho base. rewrite nth_error_map in Ho. destruct (nth_error ps j) as [p|] eqn:Ep; [|discriminate]. injection Ho as <-.
  destruct (A6 _ _ Ep) as [B1 B2]. split; [exact B1|].
  intros i v Hv. rewrite Forall_forall in Hps. destruct (Hps p (nth_error_In _ _ Ep)) as [R1 R2].
  assert (Ht' : exists t, nth_error (ct_states (ci_ty c)) i = Some t).
  { unfold field_of, ci_state_id in Hv. destruct (nth_error (ct_states (ci_ty c)) i); [eauto|discriminate]. }
  destruct Ht' as [t Hti].
  destruct (forall2_nth_r _ _ _ R1 i (mkPid t i (ci_handle c))) as [f [Hf [S1 [S2 [S3 [S4 S5]]]]]].
  { rewrite state_ids_nth, Hti. reflexivity. }
  assert (v = sf_v f).
  { unfold field_of, ci_state_id in Hv. rewrite Hti in Hv. cbn [option_map dyn_id_new pid_type] in Hv. unfold dyn_id_new in Hv.
    rewrite S4 in Hv. cbn [pid_type] in S5. unfold st_at in Hv. rewrite S5 in Hv. congruence. }
  subst v. change (base + i) with (j * nf + i). rewrite (B2 _ _ Hf). rewrite Forall_forall in R2. specialize (R2 _ (nth_error_In _ _ Hf)).
  destruct (ptype_eqb_spec (prop_type (sf_v f)) tobj) as [Eo|Eo].
  { destruct (prim_obj _ Eo) as [h Eh]. rewrite Eh. cbn. eauto. }
  destruct (ptype_eqb_spec (prop_type (sf_v f)) tcon) as [Ec|Ec].
  { destruct (prim_con _ Ec) as [h Eh]. rewrite Eh. cbn. eauto. }
  destruct (enc_stands (fun _ _ => False) (fun _ _ => False) _ R2 Eo Ec) as [fv [K1 K2]]. rewrite K1. exact K2.
Qed.
Print Assumptions C33_serialize_appends.
