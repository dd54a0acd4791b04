(** C25: contracts with channels never survive the round trip. *)
From Verif Require Import PropertiesDeserExact PropertiesTags PropertiesDeser PropertiesBaseline SerProofs PropertiesSer PropertiesRound.
Open Scope nat_scope.

(** A buffer written for a selection [l] of the contracts of a baseline: the entry
    a reader finds for a contract is the one written for it. *)
Lemma written_selected k ops rs b l fb :
  crun (baseline_new k) ops = (rs, b) -> existsb is_panic rs = false -> all_disciplined rs_empty ops rs ->
  selection b (rfinal rs_empty ops rs) l -> encodes b l fb ->
  forall n c ord, nth_error l n = Some (c, ord) -> selected fb (ci_ty c) n.
Proof.
  intros Hc Hp Hd Hsel Hen.
  destruct (rfinal_rrel _ _ _ _ _ _ _ (rrel_empty k) Hc Hp Hd) as [fs [fc Hr]]. set (s := rfinal rs_empty ops rs) in *.
  assert (Hcdid : forall c ord, In (c, ord) l -> exists cd, get (b_contracts b) (ci_handle c) = Some cd /\ cd_id cd = ct_id (ci_ty c)).
  { intros c ord Hin. pose proof (sel_reg _ _ _ Hsel _ _ Hin) as Hcon. pose proof (rr_con _ _ _ _ Hr (ci_handle c)) as H.
    rewrite Hcon in H. destruct H as [cd [H1 [H2 _]]]. eauto. }
  assert (Hids : forall c1 ord1 c2 ord2, In (c1, ord1) l -> In (c2, ord2) l -> ct_id (ci_ty c1) = ct_id (ci_ty c2) -> (c1, ord1) = (c2, ord2)).
  { intros c1 ord1 c2 ord2 H1 H2 E. destruct (Hcdid _ _ H1) as [cd1 [G1 G2]]. destruct (Hcdid _ _ H2) as [cd2 [G3 G4]].
    apply (nodup_map_inj (fun p => ci_handle (fst p)) l (sel_once _ _ _ Hsel)); auto. cbn.
    apply (bi_ids _ (rr_inv _ _ _ _ Hr) _ _ _ _ G1 G3). congruence. }
  pose proof (NoDup_map_inv _ _ (sel_once _ _ _ Hsel)) as Hl.
  destruct (en_contracts _ _ _ Hen) as [fcs [Efcs Hdesc]].
  intros n c ord Hn. destruct (forall2_nth _ _ _ Hdesc _ _ Hn) as [fc0 [H1 H2]]. cbn in H2.
  exists fcs, fc0. split; auto. split; auto. split; auto. intros m fc' Hlt Hm Hdd.
  destruct (forall2_nth_r _ _ _ Hdesc _ _ Hm) as [[c' ord'] [H3 H4]]. cbn in H4.
  pose proof (describes_id _ _ _ Hdd H4) as Eid.
  pose proof (Hids _ _ _ _ (nth_error_In _ _ Hn) (nth_error_In _ _ H3) Eid) as E.
  assert (n = m); [|lia].
  eapply NoDup_nth_error; [exact Hl|apply nth_error_Some; congruence|]. congruence.
Qed.

(** Whatever is written and in whatever order things are hashed, registered and
    read: the objects of a contract with channels are refused. *)
Theorem C25_objects_with_channels_never_read_back :
  forall k ops rs b l c ord o sr ordc ordo fb k' cs' done d c' r d',
    crun (baseline_new k) ops = (rs, b) -> existsb is_panic rs = false -> all_disciplined rs_empty ops rs ->
    selection b (rfinal rs_empty ops rs) l -> intact b l -> plain l -> fits_format l ->
    In (c, ord) l -> In o ord -> ct_chans (ci_ty c) <> [] ->
    serialize_all b ser_new l = (Ok tt, sr) -> Permutation ordc (hm_cstates sr) -> Permutation ordo (hm_ostates sr) ->
    ser_finish b sr ordc ordo = Ok (Some fb) ->
    cs_ok cs' -> deserializes fb k' cs' done done d -> In c' cs' -> ci_ty c' = ci_ty c ->
    deserialize_objects d c' = (r, d') -> r <> Ok tt.
Proof.
  intros k ops rs b l c ord o sr ordc ordo fb k' cs' done d c' r d' Hc Hp Hd Hsel Hint Hpl Hfit Hin Ho Hch
    Es Hoc Hoo Ef HL Hds Hc' Hty E Hr.
  destruct (C33_buffer_holds_exactly_the_selection k ops rs b l Hc Hp Hd Hsel Hint Hpl Hfit) as [sr' [Es' Hfin]].
  rewrite Es in Es'. injection Es' as <-. destruct (Hfin _ _ Hoc Hoo) as [F1 F2].
  assert (Hnn : ~ ~ closed b l) by (intros Hn; rewrite (F2 Hn) in Ef; discriminate).
  apply Hnn. intros Hclo. destruct (F1 Hclo) as [fb' [Ef' Hen]]. rewrite Ef in Ef'. injection Ef' as <-.
  apply In_nth_error in Hin. destruct Hin as [n Hn].
  pose proof (listing_in l 0 _ _ _ _ Hn Ho) as Hx. cbn [plus] in Hx.
  apply In_nth_error in Hx. destruct Hx as [j Hj].
  destruct (en_object _ _ _ Hen _ _ _ _ Hj) as [G1 _].
  eapply (C26_objects_with_channels_are_never_accepted fb k' cs' done d c' r d' j); eauto.
  - rewrite Hty. auto.
  - exists c', n. split; [left; auto|]. split; auto. rewrite Hty. eapply written_selected; eauto.
Qed.
Print Assumptions C25_objects_with_channels_never_read_back.

(** The hypotheses are met by the history of
    [C25_channel_contracts_cannot_be_read_back_refuted]. *)
Definition chOps : list rop := [RRegister rtCh; RCreate rtCh (rtI 0) [PPrim (VU8 1)] [mkChannel (TPrim TU8) []]].
Definition chAns : list (outcome rret) := [Ok (YHandle (rtI 0)); Ok (YHandle (rtI 0))].
Definition chL : list (contract_inst * list index) := [(mkCinst rtCh (rtI 0), [rtI 0])].
Example channels_example :
  crun (baseline_new KMain) chOps = (chAns, rtB2) /\ existsb is_panic chAns = false /\
  all_disciplined rs_empty chOps chAns /\ selection rtB2 (rfinal rs_empty chOps chAns) chL /\
  intact rtB2 chL /\ plain chL /\ fits_format chL /\
  exists sr fb c', serialize_all rtB2 ser_new chL = (Ok tt, sr) /\
    ser_finish rtB2 sr (hm_cstates sr) (hm_ostates sr) = Ok (Some fb) /\
    deserializes fb KMain [c'] [] [] (deser_new (snd (ds_builder fb [rtCh]))) /\ ci_ty c' = rtCh /\ cs_ok [c'].
Proof.
  split; [|split; [reflexivity|split]].
  - rewrite (surjective_pairing (crun (baseline_new KMain) chOps)). unfold rtB2. apply f_equal2; [vm_compute; reflexivity|reflexivity].
  - unfold chOps, chAns. cbn -[rtCh]. split; [auto|]. split; [|auto]. split; [|repeat constructor].
    intros C' Hc; vm_compute in Hc; injection Hc as <-; reflexivity.
  - split; [constructor|split; [|split; [|split]]].
    + intros c ord [E|[]]; injection E as <- <-; vm_compute; reflexivity.
    + intros c ord [E|[]]; injection E as <- <-; eexists; (split; [vm_compute; reflexivity|]). apply Permutation_refl.
    + cbn. repeat constructor; cbn; intuition discriminate.
    + intros c ord o [E|[]]; injection E as <- <-; intros H; cbn in H; destruct H as [<-|[]]; vm_compute; discriminate.
    + intros c ord p [E|[]]; injection E as <- <-; cbn; intuition discriminate.
    + repeat split; vm_compute; try reflexivity; discriminate.
    + eexists _, _, (mkCinst rtCh (rtI 1)). split; [vm_compute; reflexivity|]. split; [vm_compute; reflexivity|].
      split; [constructor; apply ds_builds; vm_compute; reflexivity|]. split; [reflexivity|repeat constructor].
Qed.
