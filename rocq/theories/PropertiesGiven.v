(** C55: whatever a baseline holds was handed to it by a call. *)
From Verif Require Import BaselineSpec BaselineProofs BaselineMono Provenance PropertiesBaseline.
Open Scope list_scope.
Open Scope nat_scope.

(** ** Specification *)

(** The call hands the value [v] to the baseline: as an initial value of a new object, or to
    be stored in a state. *)
Definition hands_value (op : bop) (v : dynprop) : Prop :=
  (exists c vs cs, op = BCreate c vs cs /\ In v vs) \/ exists h, op = BSetState h v.
(** The call hands the keyframe [kf] to the baseline: in a channel of a new object, or to
    replace the keyframes of a channel. *)
Definition hands_keyframe (op : bop) (kf : keyframe) : Prop :=
  (exists c vs cs ch, op = BCreate c vs cs /\ In ch cs /\ In kf (ch_keys ch)) \/
  exists t h ks, op = BSetKeys t h ks /\ In kf ks.

(** ** Proofs *)
Lemma given_hands op v : In v (given op) -> hands_value op v.
Proof.
  destruct op; cbn [given]; intros H; try destruct H as []; try subst.
  - left. eauto 6.
  - right. eauto.
  - destruct H.
Qed.
Lemma given_keys_hands op kf : In kf (given_keys op) -> hands_keyframe op kf.
Proof.
  destruct op; cbn [given_keys]; intros H; try destruct H.
  - left. apply in_flat_map in H. destruct H as [ch [H1 H2]]. eauto 8.
  - right. eauto 6.
Qed.

(** ** C55 *)

(** Whatever calls are made, in whatever order and however they are misused: a value in a
    state, and a keyframe in a channel, was handed over by one of them.  No call makes up a
    value or takes one from anywhere else. *)
Theorem C55_values_were_handed_over :
  forall k ops b t h v, bsteps (baseline_new k) ops b -> st_at b t h = Some v ->
    exists op, In op ops /\ hands_value op v.
Proof.
  intros k ops b t h v Hs Hv.
  destruct (bsteps_values _ _ _ (binv_new k) Hs) as [V _].
  destruct (V _ _ _ Hv) as [E|E]; [rewrite st_at_look in E; discriminate E|].
  apply in_flat_map in E. destruct E as [op [H1 H2]]. exists op. split; auto. apply given_hands. exact H2.
Qed.
Print Assumptions C55_values_were_handed_over.
Theorem C55_keyframes_were_handed_over :
  forall k ops b t h c kf, bsteps (baseline_new k) ops b -> ch_at b t h = Some c -> In kf (ch_keys c) ->
    exists op, In op ops /\ hands_keyframe op kf.
Proof.
  intros k ops b t h c kf Hs Hc Hk.
  destruct (bsteps_values _ _ _ (binv_new k) Hs) as [_ V].
  destruct (V _ _ _ Hc) as [E|E]; [rewrite ch_at_look in E; discriminate E|].
  specialize (E _ Hk). apply in_flat_map in E. destruct E as [op [H1 H2]]. exists op. split; auto.
  apply given_keys_hands. exact H2.
Qed.
Print Assumptions C55_keyframes_were_handed_over.
(** From any state on: a later value is an earlier one of the same place, or was handed over
    since. *)
Theorem C55_later_values_were_there_or_handed_over :
  forall b ops b', reach b -> bsteps b ops b' ->
    (forall t h v, st_at b' t h = Some v -> st_at b t h = Some v \/ exists op, In op ops /\ hands_value op v) /\
    (forall t h c, ch_at b' t h = Some c -> ch_at b t h = Some c \/
       forall kf, In kf (ch_keys c) -> exists op, In op ops /\ hands_keyframe op kf).
Proof.
  intros b ops b' Hr Hs.
  destruct (bsteps_values _ _ _ (reach_binv _ Hr) Hs) as [V W]. split.
  - intros t h v H. destruct (V _ _ _ H) as [E|E]; auto. right.
    apply in_flat_map in E. destruct E as [op [H1 H2]]. exists op. split; auto. apply given_hands. exact H2.
  - intros t h c H. destruct (W _ _ _ H) as [E|E]; auto. right. intros kf Hk.
    specialize (E _ Hk). apply in_flat_map in E. destruct E as [op [H1 H2]]. exists op. split; auto.
    apply given_keys_hands. exact H2.
Qed.
Print Assumptions C55_later_values_were_there_or_handed_over.

(** ** A concrete history: two objects, a state is overwritten, an object is removed and its
    handles are used again *)
Definition gvOps : list bop :=
  exOps ++ [BSetState (mkIndex 1 0%N) (PPrim (VU8 42)); BSetKeys (TPrim TF32) (mkIndex 1 0%N) [mkKey (PPrim (VF32 5)) 1];
            BRemove exC (mkIndex 0 0%N); BSetState (mkIndex 0 0%N) (PPrim (VU8 1)); BCreate (mkCinst exC exH) exVals [exChan]].
Definition gvB : baseline := snd (brun (baseline_new KMain) gvOps).
Lemma gv_steps : bsteps (baseline_new KMain) gvOps gvB.
Proof. apply bops_ok_steps. vm_compute. repeat split; repeat constructor. Qed.
Example C55_applies :
  (exists op, In op gvOps /\ hands_value op (PPrim (VU8 42))) /\
  (exists op, In op gvOps /\ hands_keyframe op (mkKey (PPrim (VF32 5)) 1)) /\
  ~ (exists t h, st_at gvB t h = Some (PPrim (VU8 43))).
Proof.
  split; [|split].
  - apply (C55_values_were_handed_over KMain gvOps gvB (TPrim TU8) (mkIndex 1 0%N)); [exact gv_steps|vm_compute; reflexivity].
  - eapply (C55_keyframes_were_handed_over KMain gvOps gvB (TPrim TF32) (mkIndex 1 0%N)); [exact gv_steps|vm_compute; reflexivity|left; reflexivity].
  - intros [t [h H]]. destruct (C55_values_were_handed_over _ _ _ _ _ _ gv_steps H) as [op [Hin [[c [vs [cs [-> Hv]]]]|[h' ->]]]].
    + repeat destruct Hin as [E|Hin]; try discriminate E; try (injection E as _ <- _; cbn in Hv; intuition discriminate); contradiction.
    + repeat destruct Hin as [E|Hin]; try discriminate E; contradiction.
Qed.
