(** What a call keeps of what the client sees. *)
From Verif Require Export CApiStep.
Open Scope nat_scope.

Lemma held_box H a : held H (PBox a) <-> look H a <> None.
Proof. split; [intros (x & E & L); injection E as <-; exact L|intros L; exists a; auto]. Qed.
Lemma held_is_box H p : held H p -> exists a, p = PBox a.
Proof. intros (a & -> & _). eauto. Qed.

(** The baseline a box shows before and after. *)
Inductive moved (H : heap) (k : call) (a : nat) (b b' : baseline) : Prop :=
| mv_ext : bext b b' -> moved H k a b b'
| mv_set e t h p va v : k = State__value_set t (PState a e true t h) p -> owned_val H t p = Some (va, v) ->
    state_set b h (PPrim v) = (Ok tt, b') -> moved H k a b b'.

Lemma keep_base H k r H' a b e : hinv H -> step H k = Done r H' -> look H a = Some (CBase b e) -> look H' a <> None ->
  exists b' e', look H' a = Some (CBase b' e') /\ moved H k a b b'.
Proof.
  intros I E L N. destruct (step_change _ _ _ _ I E) as [_ Ch]. specialize (Ch a). rewrite L in Ch.
  destruct (look H' a) as [x|] eqn:L'; [|congruence]. inversion Ch; subst; try congruence.
  - exists b, e. split; [reflexivity|]. apply mv_ext, bext_refl.
  - do 2 eexists. split; [reflexivity|]. now apply mv_ext.
  - do 2 eexists. split; [reflexivity|]. eapply mv_set; eauto.
Qed.
Lemma keep_con H k r H' a c : hinv H -> step H k = Done r H' -> look H a = Some (CCon c) -> look H' a <> None -> look H' a = Some (CCon c).
Proof.
  intros I E L N. destruct (step_change _ _ _ _ I E) as [_ Ch]. specialize (Ch a). rewrite L in Ch. destruct (look H' a) as [x|] eqn:L'; [|congruence]. inversion Ch; subst; congruence.
Qed.
Lemma keep_val H k r H' a c : hinv H -> step H k = Done r H' -> look H a = Some (CVal c) -> look H' a <> None -> look H' a = Some (CVal c).
Proof.
  intros I E L N. destruct (step_change _ _ _ _ I E) as [_ Ch]. specialize (Ch a). rewrite L in Ch. destruct (look H' a) as [x|] eqn:L'; [|congruence]. inversion Ch; subst; congruence.
Qed.

Lemma points_box H c b o ci ba bb oh : points H c b o ci ba bb oh -> held H o ->
  exists ca oa e, c = PBox ca /\ look H ca = Some (CCon ci) /\ b = PBox ba /\ look H ba = Some (CBase bb e) /\
    o = PBox oa /\ look H oa = Some (CVal (VObjectHandle oh)).
Proof.
  intros (Cc & -> & (e & Lb) & Ho) Hh. apply held_is_box in Hh. destruct Hh as [oa ->]. apply obj_handle_box in Ho.
  apply contract_at_some in Cc. destruct Cc as (ca & -> & Lc). exists ca, oa, e. auto 10.
Qed.
Lemma box_points H ca ba oa ci bb e oh : look H ca = Some (CCon ci) -> look H ba = Some (CBase bb e) ->
  look H oa = Some (CVal (VObjectHandle oh)) -> points H (PBox ca) (PBox ba) (PBox oa) ci ba bb oh.
Proof.
  intros Lc Lb Lo. repeat split; eauto.
  - cbn [contract_at]. now rewrite Lc.
  - now apply obj_handle_box.
Qed.

Lemma keep_points H k r H' c b o ci ba bb oh : hinv H -> step H k = Done r H' -> points H c b o ci ba bb oh ->
  held H' c -> held H' b -> held H' o ->
  exists bb', points H' c b o ci ba bb' oh /\ moved H k ba bb bb'.
Proof.
  intros I E P Hc Hb Ho. assert (HoH : held H o).
  { destruct (held_is_box _ _ Ho) as [oa ->]. destruct P as (_ & _ & _ & Q). apply obj_handle_box in Q. apply held_box. congruence. }
  destruct (points_box _ _ _ _ _ _ _ _ P HoH) as (ca & oa & e & -> & Lc & -> & Lb & -> & Lo).
  apply held_box in Hc. apply held_box in Hb. apply held_box in Ho.
  destruct (keep_base _ _ _ _ _ _ _ I E Lb Hb) as (b' & e' & Lb' & M).
  exists b'. split; [|exact M]. eapply box_points; eauto; [eapply keep_con; eauto|eapply keep_val; eauto].
Qed.

Lemma shows_frame H k r H' c b o f v : hinv H -> step H k = Done r H' -> shows H c b o f v ->
  held H' c -> held H' b -> held H' o -> (forall t s p, k <> State__value_set t s p) -> shows H' c b o f v.
Proof.
  intros I E S Hc Hb Ho NS. pose proof (proj1 (step_change _ _ _ _ I E)) as I'.
  apply (shows_char _ _ _ _ _ _ I) in S. destruct S as (ci & ba & bb & oh & P & V).
  destruct (keep_points _ _ _ _ _ _ _ _ _ _ _ I E P Hc Hb Ho) as (bb' & P' & [M|e t h p va w Q _ _]); [|now apply NS in Q].
  apply (shows_char _ _ _ _ _ _ I'). exists ci, ba, bb', oh. split; [exact P'|]. eapply view_ext; eauto.
Qed.

Lemma shows_set H t s p r H' c b o f v : hinv H -> step H (State__value_set t s p) = Done r H' -> shows H c b o f v ->
  held H' c -> held H' b -> held H' o ->
  exists w, loads H p w /\ (shows H' c b o f v \/ shows H' c b o f w).
Proof.
  intros I E S Hc Hb Ho. pose proof (proj1 (step_change _ _ _ _ I E)) as I'.
  assert (W : exists w a, owned_val H t p = Some (a, w)).
  { cbn [step] in E. destruct (state_ok H t s); [|discriminate]. cbn [negb] in E. destruct (owned_val H t p) as [[a w]|]; [eauto|discriminate]. }
  destruct W as (w & a & W). exists w. split.
  { apply owned_val_some in W. destruct W as (-> & L & _). now apply loads_box. }
  apply (shows_char _ _ _ _ _ _ I) in S. destruct S as (ci & ba & bb & oh & P & V).
  destruct (keep_points _ _ _ _ _ _ _ _ _ _ _ I E P Hc Hb Ho) as (bb' & P' & M).
  assert (X : exinv bb) by (destruct P as (_ & _ & (e & Lb) & _); exact (hi_base _ I _ _ _ Lb)).
  destruct M as [M|e t0 h p0 va w0 Q Ow St].
  - left. apply (shows_char _ _ _ _ _ _ I'). exists ci, ba, bb', oh. split; [exact P'|]. eapply view_ext; eauto.
  - injection Q as <- -> <-. rewrite W in Ow. injection Ow as <- <-.
    pose proof (view_set bb bb' h w (ci_handle ci) oh f X St) as Vs. rewrite V in Vs.
    match type of Vs with _ = if ?g then _ else _ => destruct g end; [right|left];
      apply (shows_char _ _ _ _ _ _ I'); exists ci, ba, bb', oh; auto.
Qed.

(** Two fields changed by one write are the same field. *)
Lemma set_one_field H t s p r H' c1 b1 o1 f1 v1 c2 b2 o2 f2 v2 : hinv H -> step H (State__value_set t s p) = Done r H' ->
  shows H c1 b1 o1 f1 v1 -> held H' c1 -> held H' b1 -> held H' o1 -> ~ shows H' c1 b1 o1 f1 v1 ->
  shows H c2 b2 o2 f2 v2 -> held H' c2 -> held H' b2 -> held H' o2 -> ~ shows H' c2 b2 o2 f2 v2 ->
  b1 = b2 /\ f1 = f2 /\ forall x, loads H o1 x <-> loads H o2 x.
Proof.
  intros I E S1 Hc1 Hb1 Ho1 N1 S2 Hc2 Hb2 Ho2 N2. pose proof (proj1 (step_change _ _ _ _ I E)) as I'.
  apply (shows_char _ _ _ _ _ _ I) in S1. destruct S1 as (ci1 & ba1 & bb1 & oh1 & P1 & V1).
  apply (shows_char _ _ _ _ _ _ I) in S2. destruct S2 as (ci2 & ba2 & bb2 & oh2 & P2 & V2).
  destruct (keep_points _ _ _ _ _ _ _ _ _ _ _ I E P1 Hc1 Hb1 Ho1) as (bb1' & P1' & M1).
  destruct (keep_points _ _ _ _ _ _ _ _ _ _ _ I E P2 Hc2 Hb2 Ho2) as (bb2' & P2' & M2).
  assert (X1 : exinv bb1) by (destruct P1 as (_ & _ & (e & Lb) & _); exact (hi_base _ I _ _ _ Lb)).
  destruct M1 as [M1|e1 t1 h1 p1 va1 w1 Q1 Ow1 St1].
  { exfalso. apply N1. apply (shows_char _ _ _ _ _ _ I'). exists ci1, ba1, bb1', oh1. split; [exact P1'|]. eapply view_ext; eauto. }
  destruct M2 as [M2|e2 t2 h2 p2 va2 w2 Q2 Ow2 St2].
  { exfalso. apply N2. apply (shows_char _ _ _ _ _ _ I'). exists ci2, ba2, bb2', oh2. split; [exact P2'|]. eapply view_ext; eauto. }
  injection Q1 as <- -> <-. injection Q2; intros; subst t2 p2 ba2 h2 e2. clear Q2. rewrite Ow1 in Ow2. injection Ow2 as <- <-.
  assert (bb2 = bb1).
  { destruct P1 as (_ & _ & (x1 & L1) & _), P2 as (_ & _ & (x2 & L2) & _). congruence. }
  subst bb2. assert (bb2' = bb1') by congruence. subst bb2'.
  pose proof (view_set bb1 bb1' h1 w1 (ci_handle ci1) oh1 f1 X1 St1) as W1. rewrite V1 in W1.
  pose proof (view_set bb1 bb1' h1 w1 (ci_handle ci2) oh2 f2 X1 St1) as W2. rewrite V2 in W2.
  destruct (view_field _ _ _ _ _ V1) as (ob1 & k1 & Ob1 & _ & K1 & _ & F1). rewrite Ob1, K1 in W1.
  destruct (view_field _ _ _ _ _ V2) as (ob2 & k2 & Ob2 & _ & K2 & _ & F2). rewrite Ob2, K2 in W2.
  destruct (tm_same _ _ _ k1) eqn:T1; cycle 1.
  { exfalso. apply N1. apply (shows_char _ _ _ _ _ _ I'). exists ci1, ba1, bb1', oh1. auto. }
  destruct (tm_same _ _ _ k2) eqn:T2; cycle 1.
  { exfalso. apply N2. apply (shows_char _ _ _ _ _ _ I'). exists ci2, ba1, bb1', oh2. auto. }
  apply tm_same_true in T1. apply tm_same_true in T2. destruct T1 as [T1 <-], T2 as [T2 <-].
  rewrite <- T1 in F1. rewrite <- T2 in F2. destruct (ex_inj _ X1 _ _ _ _ _ _ F1 F2) as [Eo Ei]. apply exfield_idx_inj in Ei.
  subst oh2 f2.
  destruct P1 as (_ & -> & _ & Q1), P2 as (_ & -> & _ & Q2). split; [reflexivity|split; [reflexivity|]].
  intros x. unfold loads. cbn [step]. unfold obj_handle_at in Q1, Q2.
  destruct (val_at H o1) as [y1|]; [|discriminate]. destruct (val_at H o2) as [y2|]; [|discriminate].
  destruct y1; try discriminate. destruct y2; try discriminate. injection Q1 as ->. injection Q2 as ->. tauto.
Qed.
