(** C41: a deserialized baseline is an ordinary baseline. *)
From Verif Require Import PropertiesDeser DeserFinish.
Open Scope nat_scope.

Lemma bsteps_snoc b ops b1 op r b2 : bsteps b ops b1 -> bop_ok b1 op -> bstep b1 op = (r, b2) -> r <> Panic ->
  bsteps b (ops ++ [op]) b2.
Proof.
  intros H Ok E N. induction H as [b|b o r0 b1 ops b3 O1 E1 N1 H IH]; cbn.
  - econstructor; eauto. constructor.
  - econstructor; eauto.
Qed.
Definition from (k : baseline_kind) (b : baseline) : Prop := exists ops, bsteps (baseline_new k) ops b.
Lemma from_step k b op r b2 : from k b -> bop_ok b op -> bstep b op = (r, b2) -> r <> Panic -> from k b2.
Proof. intros (ops & H) O E N. exists (ops ++ [op]). eapply bsteps_snoc; eauto. Qed.

Lemma from_builder_new fb k d : builder_new fb k = Ok d -> from k (d_base d).
Proof.
  unfold builder_new. destruct (register_contract (baseline_new k) NullContract) as [[c|?|] b1] eqn:E; try discriminate.
  destruct (object_create b1 c [] []) as [[o|?|] b2] eqn:E2; try discriminate. intros H. injection H as <-. cbn.
  assert (F1 : from k b1).
  { apply (from_step k (baseline_new k) (BRegister NullContract) (Ok (RContract c))); [exists []; constructor|exact Logic.I| |discriminate].
    cbn [bstep]. rewrite E. reflexivity. }
  apply (from_step k b1 (BCreate c [] []) (Ok (RHandle o))); [exact F1|constructor| |discriminate].
  cbn [bstep]. rewrite E2. reflexivity.
Qed.
Lemma from_register k d C r d' : from k (d_base d) -> builder_register d C = (r, d') -> r <> Panic -> from k (d_base d').
Proof.
  intros F H N. unfold builder_register in H. destruct (find_serialized_contract (d_fb d) C); [|inversion H; subst; auto|inversion H; subst; auto].
  destruct (register_contract (d_base d) C) as [[c|e|] b1] eqn:E.
  - assert (F1 : from k b1).
    { apply (from_step k (d_base d) (BRegister C) (Ok (RContract c))); [exact F|exact Logic.I| |discriminate]. cbn [bstep]. rewrite E. reflexivity. }
    destruct (bm_fresh _ _ _ _ _); inversion H; subst; exact F1.
  - inversion H; subst. cbn. apply (from_step k (d_base d) (BRegister C) (Err e)); [exact F|exact Logic.I| |discriminate].
    cbn [bstep]. rewrite E. reflexivity.
  - inversion H; subst. congruence.
Qed.
Lemma from_deserialize_obj k d c i o r d' : from k (d_base (ds_b d)) -> deserialize_obj d c i o = (r, d') -> r <> Panic -> from k (d_base (ds_b d')).
Proof.
  intros F H N. unfold deserialize_obj in H. destruct (match fo_states o with Some _ => _ | None => _ end); [inversion H; subst; congruence|].
  destruct (build_props _ _ _) as [[[ps ns]|?|] refs]; [|inversion H; subst; exact F|inversion H; subst; congruence].
  destruct (object_create (d_base (ds_b d)) c ps []) as [[oh|e|] b1] eqn:E; [| |inversion H; subst; congruence].
  - assert (F1 : from k b1).
    { apply (from_step k (d_base (ds_b d)) (BCreate c ps []) (Ok (RHandle oh))); [exact F|constructor| |discriminate]. cbn [bstep]. rewrite E. reflexivity. }
    destruct (track_nulls b1 oh ns (ds_states d)) as [[?|?|] st]; [|inversion H; subst; exact F1|inversion H; subst; congruence].
    destruct (bm_fresh _ _ _ _ _); inversion H; subst; [exact F1|congruence].
  - inversion H; subst. cbn. apply (from_step k (d_base (ds_b d)) (BCreate c ps []) (Err e)); [exact F|constructor| |discriminate].
    cbn [bstep]. rewrite E. reflexivity.
Qed.
Lemma from_each k c l : forall d r d', from k (d_base (ds_b d)) -> deserialize_each d c l = (r, d') -> r <> Panic -> from k (d_base (ds_b d')).
Proof.
  induction l as [|i l IH]; intros d r d' F H N; cbn [deserialize_each] in H; [inversion H; subst; exact F|].
  destruct (validate_obj (ds_b d) c i) as [o|?|]; [|inversion H; subst; exact F|inversion H; subst; congruence].
  destruct (deserialize_obj d c i o) as [r1 d1] eqn:E.
  destruct r1 as [u|e|]; [| |inversion H; subst; congruence].
  - apply (IH d1 r d'); auto. eapply from_deserialize_obj; eauto. discriminate.
  - inversion H; subst. eapply from_deserialize_obj; eauto.
Qed.
Lemma from_objects k d c r d' : from k (d_base (ds_b d)) -> deserialize_objects d c = (r, d') -> r <> Panic -> from k (d_base (ds_b d')).
Proof.
  intros F H N. unfold deserialize_objects in H. destruct (bm_right _ _ _); [|inversion H; subst; congruence].
  destruct (fb_objects _); [|inversion H; subst; exact F]. eapply from_each; eauto.
Qed.
Lemma from_builds fb k cs d : builds fb k cs d -> from k (d_base d).
Proof.
  intros H. induction H as [d E|cs d C c d' H IH E|cs d C e d' H IH E].
  - eapply from_builder_new; eauto.
  - eapply from_register; eauto. discriminate.
  - eapply from_register; eauto. discriminate.
Qed.
Lemma from_deserializes fb k cs tried dn d : deserializes fb k cs tried dn d -> from k (d_base (ds_b d)).
Proof.
  intros H. induction H as [d E|tried dn d c d' H IH I E|tried dn d c e d' H IH I E].
  - cbn. eapply from_builds; eauto.
  - eapply from_objects; eauto. discriminate.
  - eapply from_objects; eauto. discriminate.
Qed.
Lemma state_set_contracts b h v : b_contracts (snd (state_set b h v)) = b_contracts b.
Proof. unfold state_set. repeat match goal with |- context [match ?x with _ => _ end] => destruct x; cbn; auto end. Qed.
Lemma from_restore k refs objs ord : forall b b1, from k b -> restore_refs refs objs b ord = (Ok tt, b1) ->
  from k b1 /\ b_contracts b1 = b_contracts b.
Proof.
  induction ord as [|[s h] ord IH]; intros b b1 F H; cbn [restore_refs] in H; [inversion H; subst; auto|].
  destruct (ref_of refs s); [|discriminate]. destruct (bm_right _ _ _) as [oh|]; [|discriminate].
  destruct (state_set b h (PPrim (VObjectHandle oh))) as [[u|?|] b2] eqn:E; try discriminate.
  destruct (IH b2 b1) as [F1 C1]; auto.
  - apply (from_step k b (BSetState h (PPrim (VObjectHandle oh))) (Ok RUnit)); [exact F|exact Logic.I| |discriminate].
    cbn [bstep]. rewrite E. destruct u. reflexivity.
  - split; auto. rewrite C1. pose proof (state_set_contracts b h (PPrim (VObjectHandle oh))) as X. rewrite E in X. exact X.
Qed.

(** Whatever bytes a baseline was deserialized from, in whatever order contracts and
    objects were read and whichever reads failed, the result is a baseline the public
    API could have built from an empty one of the requested kind, without a panic.
    Every theorem about histories of a baseline therefore applies to it. *)
Theorem C41_deserialized_baselines_are_ordinary fb k cs tried dn d b :
  deserializes fb k cs tried dn d -> finishes d (Ok b) ->
  exists ops, bsteps (baseline_new k) ops b.
Proof.
  intros H (ord & ordn & P & Pn & E). pose proof (from_deserializes _ _ _ _ _ _ H) as F.
  unfold deser_finish in E. destruct (restore_refs (ds_refs d) (ds_objects d) (d_base (ds_b d)) ord) as [[u|?|] b1] eqn:R; try discriminate.
  destruct u. destruct (from_restore k _ _ _ _ _ F R) as [F1 C1].
  destruct (unregister_contract b1 NullContract (ci_handle (d_null (ds_b d))) ordn) as [[u|?|] b2] eqn:U; try discriminate.
  injection E as <-.
  apply (from_step k b1 (BUnregister NullContract (ci_handle (d_null (ds_b d))) ordn) (Ok RUnit)); [exact F1| | |discriminate].
  - intros cd Ec. apply Pn. unfold con_at. rewrite <- C1. exact Ec.
  - cbn [bstep]. rewrite U. destruct u. reflexivity.
Qed.
Print Assumptions C41_deserialized_baselines_are_ordinary.

(** So it is internally consistent, like any baseline: every object belongs to a
    registered contract that lists it; no contract lists an object twice or lists a
    live object of another; and contract ids are distinct. *)
Theorem C41_deserialized_baselines_are_consistent fb k cs tried dn d b :
  deserializes fb k cs tried dn d -> finishes d (Ok b) ->
  (forall o ob, obj_at b o = Some ob -> exists cd, con_at b (o_contract ob) = Some cd /\ In o (cd_objects cd)) /\
  (forall h cd, con_at b h = Some cd -> NoDup (cd_objects cd) /\
     forall o ob, In o (cd_objects cd) -> obj_at b o = Some ob -> o_contract ob = h) /\
  (forall h1 h2 c1 c2, con_at b h1 = Some c1 -> con_at b h2 = Some c2 -> cd_id c1 = cd_id c2 -> h1 = h2).
Proof.
  intros H F. destruct (C41_deserialized_baselines_are_ordinary _ _ _ _ _ _ _ H F) as (ops & S).
  assert (B : binv b) by (apply reach_binv; exists k, ops; exact S).
  split; [|split].
  - intros o ob E. apply (bi_obj_con b B o ob E).
  - intros h cd E. split; [apply (bi_nodup b B h cd E)|]. intros o ob I E'.
    destruct (bi_con_obj b B h cd o E I) as [D|(ob' & E2 & <-)].
    + unfold obj_at in E'. destruct D as [D _]. congruence.
    + unfold obj_at in E'. congruence.
  - apply (bi_ids b B).
Qed.
Print Assumptions C41_deserialized_baselines_are_consistent.

(** Loading, using, saving and loading again, any number of times: no baseline a
    program can hold this way is new. *)
Inductive held : baseline -> Prop :=
| held_new k : held (baseline_new k)
| held_use b op r b' : held b -> bop_ok b op -> bstep b op = (r, b') -> r <> Panic -> held b'
| held_load fb k cs tried dn d b : deserializes fb k cs tried dn d -> finishes d (Ok b) -> held b.
Theorem C41_saving_and_loading_adds_no_states b : held b <-> reach b.
Proof.
  split.
  - intros H. induction H as [k|b op r b' H IH O E N|fb k cs tried dn d b H F].
    + exists k, []. constructor.
    + destruct IH as (k & ops & S). exists k, (ops ++ [op]). eapply bsteps_snoc; eauto.
    + destruct (C41_deserialized_baselines_are_ordinary _ _ _ _ _ _ _ H F) as (ops & S). exists k, ops. exact S.
  - intros (k & ops & S). pose proof (held_new k) as H0. induction S as [|b op r b1 ops b2 O E N S IH]; auto.
    apply IH. eapply held_use; eauto.
Qed.
Print Assumptions C41_saving_and_loading_adds_no_states.


(** Non-vacuity: the two-object buffer of PropertiesDeser (an object holding a
    reference to another) is accepted; its baseline is held, reachable and consistent. *)
Example reach_example : exists b,
  deserializes dsFb KMain [dsCon] [dsCon] [dsCon] (snd (ds_deser dsFb [dsC] [dsCon])) /\
  finishes (snd (ds_deser dsFb [dsC] [dsCon])) (Ok b) /\ held b /\ reach b.
Proof.
  destruct ds_finish_ok as [b [F _]]. destruct ds_hypotheses as [_ [_ [H _]]]. exists b.
  assert (Hb : held b) by (eapply held_load; eauto).
  repeat split; auto. apply C41_saving_and_loading_adds_no_states. exact Hb.
Qed.
