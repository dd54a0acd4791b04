(** A baseline whose file cannot be loaded: one contract, one object, serialized 60000
    times. *)
From Verif Require Import BaseProofs PropertiesTags PropertiesBaseline SerProofs PropertiesSer PropertiesRound.
From Verif Require Import WireSerial Wire WireRead WireSchema WireRefine WireSize.
Import Coq.Strings.String.StringSyntax.
Open Scope string_scope.
Open Scope list_scope.
Open Scope nat_scope.

Definition wmC : contract_ty :=
  mkCty (mkCid "wm" (1%N, 0%N, 0%N)) [TPrim TU8; TPrim TU8; TPrim TU8; TPrim TU8; TPrim TU8] ["a"; "b"; "c"; "d"; "e"] [] [].
Definition wmV (z : Z) : dynprop := PPrim (VU8 z).
Definition wmOps : list rop := [RRegister wmC; RCreate wmC (rtI 0) [wmV 1; wmV 2; wmV 3; wmV 4; wmV 5] []].
Definition wmB : baseline := snd (crun (baseline_new KMain) wmOps).
Definition wmI : contract_inst := mkCinst wmC (rtI 0).
Definition wmE : contract_inst * list index := (wmI, [rtI 0]).
Definition wmL (n : nat) : list (contract_inst * list index) := repeat wmE n.
Definition wmFc : fb_contract :=
  mkFbContract (Some (mkFbCid (Some "wm") (1%N, 0%N, 0%N)))
    (Some (mkFbCstates (Some ["a"; "b"; "c"; "d"; "e"]) (Some [KU8; KU8; KU8; KU8; KU8]))).

Lemma wm_state : forall s i z, In (i, z) [(0, 1); (1, 2); (2, 3); (3, 4); (4, 5)]%Z ->
  ser_state wmB (rtI 0) s (mkPid (TPrim TU8) (Z.to_nat i) (rtI 0)) =
    (Ok (as_u32 (length (sr_states s))),
     mkSer (sr_contracts s) (sr_states s ++ [Some (FU8 z)]) (sr_objects s) (hm_objects s) (hm_contracts s) (hm_cstates s) (hm_ostates s)).
Proof.
  intros s i z IN. unfold ser_state.
  assert (B : exists h, bind_state wmB (mkPid (TPrim TU8) (Z.to_nat i) (rtI 0)) (rtI 0) = Ok h /\ state_get wmB (TPrim TU8) h = Ok (PPrim (VU8 z))).
  { cbn [In] in IN. repeat (destruct IN as [IN|IN]; [assert (i = fst (i, z)) as EI by reflexivity; assert (z = snd (i, z)) as EZ by reflexivity;
      rewrite <- IN in EI, EZ; cbn [fst snd] in EI, EZ; subst i z; eexists; split; vm_compute; reflexivity|]). contradiction. }
  destruct B as (h & B1 & B2). rewrite B1. cbn [pid_type]. rewrite B2. reflexivity.
Qed.
Lemma wm_once : forall s, (N.of_nat (length (sr_contracts s)) < 65535)%N -> hm_cstates s = [] -> hm_ostates s = [] ->
  exists s', serialize wmB s wmI [rtI 0] = (Ok tt, s') /\ sr_contracts s' = sr_contracts s ++ [wmFc] /\
    sr_states s' = sr_states s ++ map (fun z => Some (FU8 z)) [1; 2; 3; 4; 5]%Z /\ hm_cstates s' = [] /\ hm_ostates s' = [].
Proof.
  intros s L H1 H2. unfold serialize.
  assert (CD : exists cd, contract_data_of wmB (ci_handle wmI) = Ok cd) by (eexists; vm_compute; reflexivity). destruct CD as [cd CD]. rewrite CD.
  change (ser_contract (ci_ty wmI)) with (Ok wmFc : outcome fb_contract). cbv iota beta zeta.
  assert (U : N.eqb (as_u16 (length (sr_contracts s ++ [wmFc]))) 0 = false).
  { apply N.eqb_neq. unfold as_u16. rewrite app_length. cbn [length]. rewrite N.mod_small; lia. }
  rewrite U. cbn [ser_objects]. unfold ser_object.
  change (state_ids (ci_ty wmI) (ci_handle wmI)) with (map (fun i => mkPid (TPrim TU8) (Z.to_nat i) (rtI 0)) [0; 1; 2; 3; 4]%Z).
  cbn [map ser_states].
  rewrite (wm_state _ 0%Z 1%Z) by (cbn; tauto). cbn [sr_contracts sr_states sr_objects hm_objects hm_contracts hm_cstates hm_ostates].
  rewrite (wm_state _ 1%Z 2%Z) by (cbn; tauto). cbn [sr_contracts sr_states sr_objects hm_objects hm_contracts hm_cstates hm_ostates].
  rewrite (wm_state _ 2%Z 3%Z) by (cbn; tauto). cbn [sr_contracts sr_states sr_objects hm_objects hm_contracts hm_cstates hm_ostates].
  rewrite (wm_state _ 3%Z 4%Z) by (cbn; tauto). cbn [sr_contracts sr_states sr_objects hm_objects hm_contracts hm_cstates hm_ostates].
  rewrite (wm_state _ 4%Z 5%Z) by (cbn; tauto). cbn [sr_contracts sr_states sr_objects hm_objects hm_contracts hm_cstates hm_ostates].
  eexists. split; [reflexivity|]. cbn [sr_contracts sr_states sr_objects hm_objects hm_contracts hm_cstates hm_ostates].
  split; [reflexivity|]. split; [rewrite <- !app_assoc; reflexivity|]. split; assumption.
Qed.
Definition plain_state (x : option fbval) : Prop := exists z, x = Some (FU8 z).
Lemma wm_all : forall n s, (N.of_nat (length (sr_contracts s) + n) <= 65535)%N -> hm_cstates s = [] -> hm_ostates s = [] ->
  Forall (eq wmFc) (sr_contracts s) -> Forall plain_state (sr_states s) ->
  exists s', serialize_all wmB s (wmL n) = (Ok tt, s') /\ length (sr_contracts s') = length (sr_contracts s) + n /\ hm_cstates s' = [] /\ hm_ostates s' = [] /\
    Forall (eq wmFc) (sr_contracts s') /\ Forall plain_state (sr_states s').
Proof.
  unfold wmL. induction n as [|n IH]; intros s L H1 H2 FC FS; cbn [repeat serialize_all].
  - exists s. split; [reflexivity|]. split; [lia|]. auto.
  - unfold wmE at 1. destruct (wm_once s) as (s1 & E & C & St & G1 & G2); [lia|exact H1|exact H2|]. rewrite E.
    destruct (IH s1) as (s2 & E2 & R).
    + rewrite C, app_length. cbn [length]. lia.
    + exact G1.
    + exact G2.
    + rewrite C. apply Forall_app. split; [exact FC|]. constructor; [reflexivity|constructor].
    + rewrite St. apply Forall_app. split; [exact FS|]. cbn [map]. repeat (constructor; [eexists; reflexivity|]). constructor.
    + exists s2. split; [exact E2|]. rewrite C, app_length in R. cbn [length] in R. destruct R as (R1 & R). split; [lia|exact R].
Qed.
Lemma plain_some : forall l, Forall plain_state l -> exists vs, all_some l = Some vs /\ sum (map mass_value vs) = 0%Z.
Proof.
  intros l F. induction F as [|x l [z X] F IH]; [exists []; split; reflexivity|]. destruct IH as (vs & E & M). subst x. cbn [all_some]. rewrite E.
  eexists. split; [reflexivity|]. cbn [map sum fold_right mass_value]. fold (sum (map mass_value vs)). lia.
Qed.
Lemma mass_same : forall l, Forall (eq wmFc) l -> sum (map mass_contract l) = (57 * Z.of_nat (length l))%Z.
Proof.
  intros l F. induction F as [|x l X F IH]; [reflexivity|]. subst x. cbn [map sum fold_right length]. fold (sum (map mass_contract l)).
  rewrite IH. change (mass_contract wmFc) with 57%Z. lia.
Qed.
Lemma wm_tables : forall n, saved_tables (wmL n) = (1 + 20 * Z.of_nat n)%Z.
Proof.
  intros n. unfold saved_tables, wmL. assert (H : sum (map entry_tables (repeat wmE n)) = (20 * Z.of_nat n)%Z); [|lia].
  induction n as [|n IH]; [reflexivity|]. cbn [repeat map sum fold_right]. fold (sum (map entry_tables (repeat wmE n))). rewrite IH.
  change (entry_tables wmE) with 20%Z. lia.
Qed.

Definition wmN : nat := N.to_nat 60000.
Definition wmOrd (s : ser) : list (index * nat) * list (index * nat) := (hm_cstates s, hm_ostates s).
Lemma wm_saved : exists sr fb, serialize_all wmB ser_new (wmL wmN) = (Ok tt, sr) /\
  ser_finish wmB sr (fst (wmOrd sr)) (snd (wmOrd sr)) = Ok (Some fb) /\ mass fb = 3420000%Z.
Proof.
  destruct (wm_all wmN ser_new) as (sr & E & L & H1 & H2 & FC & FS); try reflexivity; try constructor.
  - cbn [ser_new sr_contracts length]. unfold wmN. rewrite Nat.add_0_l, N2Nat.id. discriminate.
  - destruct (plain_some _ FS) as (vs & AS & M). exists sr. eexists. split; [exact E|]. split.
    + unfold ser_finish, wmOrd. cbn [fst snd]. rewrite H1, H2. cbn [rewrite_states]. rewrite AS. reflexivity.
    + unfold mass. cbn [fb_contracts fb_states some_list]. rewrite (mass_same _ FC), M, L. cbn [ser_new sr_contracts length].
      unfold wmN. rewrite Nat.add_0_l, N_nat_Z. reflexivity.
Qed.
