(** The real values of integer tweens (misc.rs:22-33), through Flocq. *)
From Verif Require Import Tween FloatReal.
From Coq Require Import ZArith Reals Lia Lra Floats.SpecFloat Bool.
From Flocq Require Import Core IEEE754.BinarySingleNaN Relative.
Open Scope Z_scope.
#[local] Instance p24 : Prec_gt_0 24 := eq_refl _.
#[local] Instance e128 : Prec_lt_emax 24 128 := eq_refl _.

(** [x] is what rounding [v] to binary32 gives: a number, or an infinity if the
    rounded value is too large. *)
Definition rounds (x : spec_float) (v : R) : Prop :=
  ((Rabs (rnd32 v) < bpow radix2 128)%R /\ real32 x (rnd32 v)) \/
  ((bpow radix2 128 <= rnd32 v)%R /\ x = S754_infinity false) \/
  ((rnd32 v <= - bpow radix2 128)%R /\ x = S754_infinity true).

Lemma rnd_sign v : (0 <= v)%R -> (0 <= rnd32 v)%R.
Proof. intros H. rewrite <- (rnd_exact 0) by apply generic_format_0. apply rnd_le; auto. Qed.
Lemma rnd_neg v : (v <= 0)%R -> (rnd32 v <= 0)%R.
Proof. intros H. rewrite <- (rnd_exact 0) by apply generic_format_0. apply rnd_le; auto. Qed.
Lemma rnd_opp v : rnd32 (- v) = (- rnd32 v)%R.
Proof. unfold rnd32. apply round_NE_opp. Qed.

Lemma real_rounds x v : real32 x v -> rounds x v.
Proof.
  intros H. assert (F : rnd32 v = v).
  { apply rnd_exact. destruct (real32_B _ _ H) as [b [_ [_ <-]]]. exact (generic_format_B2R 24 128 b). }
  left. rewrite F. split; auto. destruct (real32_B _ _ H) as [b [_ [_ <-]]]. apply (abs_B2R_lt_emax 24 128).
Qed.

Lemma SF2R_sign s m e : Rlt_bool (SF2R radix2 (S754_finite s m e)) 0 = s.
Proof.
  unfold SF2R. destruct s; cbn [cond_Zopp].
  - apply Rlt_bool_true. apply F2R_lt_0. reflexivity.
  - apply Rlt_bool_false. apply F2R_ge_0. discriminate.
Qed.
Lemma SF2R_abs s m e : Rabs (SF2R radix2 (S754_finite s m e)) = F2R (Float radix2 (Zpos m) e).
Proof. unfold SF2R. rewrite <- F2R_Zabs. destruct s; reflexivity. Qed.
Lemma abs_lt_dec v b : (Rabs v < b)%R \/ (b <= v)%R \/ (v <= - b)%R.
Proof.
  destruct (Rlt_or_le (Rabs v) b) as [H|H]; auto. right.
  destruct (Rle_or_lt 0 v) as [P|P]; [rewrite Rabs_right in H by lra; auto|rewrite Rabs_left in H by lra; right; lra].
Qed.
Lemma b128_pos : (0 < bpow radix2 128)%R.
Proof. apply bpow_gt_0. Qed.
Lemma overflow_sign v : (bpow radix2 128 <= Rabs (rnd32 v))%R ->
  rounds (S754_infinity (Rlt_bool v 0)) v.
Proof.
  intros H. pose proof b128_pos. destruct (Rle_or_lt 0 v) as [P|P].
  - rewrite Rlt_bool_false by lra. right; left. split; auto. pose proof (rnd_sign v P). rewrite Rabs_right in H by lra. exact H.
  - rewrite Rlt_bool_true by lra. right; right. split; auto. pose proof (rnd_neg v ltac:(lra)). rewrite Rabs_left1 in H by lra. lra.
Qed.

(** An f64 time is rounded to f32. *)
Lemma cast_rounds s m e : valid_binary 53 1024 (S754_finite s m e) = true ->
  rounds (SpecFloat.binary_round_aux 24 128 s (Zpos m) e loc_Exact) (SF2R radix2 (S754_finite s m e)).
Proof.
  intros V. rewrite (binary_round_aux_equiv 24 128).
  assert (Hc : e <= fexp 24 128 (Zdigits radix2 (Zpos m) + e)).
  { cbn [valid_binary] in V. unfold bounded in V. apply andb_true_iff in V. destruct V as [V _].
    unfold canonical_mantissa in V. apply Zeq_bool_eq in V.
    rewrite Digits.Zpos_digits2_pos in V. unfold fexp, SpecFloat.emin in *.
    set (d := Zdigits radix2 (Zpos m)) in *. lia. }
  set (v := SF2R radix2 (S754_finite s m e)).
  assert (Hb : Bracket.inbetween_float radix2 (Zpos m) e (Rabs v) loc_Exact).
  { apply Bracket.inbetween_Exact. unfold v. rewrite SF2R_abs. reflexivity. }
  pose proof (binary_round_aux_correct 24 128 p24 e128 mode_NE v m e loc_Exact Hb Hc) as H.
  assert (Es : Rlt_bool v 0 = s) by apply SF2R_sign.
  cbv zeta in H. rewrite Es in H.
  destruct H as [H1 H2].
  change (round radix2 (fexp 24 128) (round_mode mode_NE) v) with (rnd32 v) in H2.
  destruct (Rlt_bool_spec (Rabs (rnd32 v)) (bpow radix2 128)) as [L|L].
  - left. split; auto. split; [exact H1|]. split; [apply H2|apply H2].
  - rewrite H2. unfold binary_overflow. cbn [overflow_to_inf].
    rewrite <- Es. apply overflow_sign. exact L.
Qed.

Lemma mul_rounds x y u v : real32 x u -> real32 y v -> rounds (SFmul 24 128 x y) (u * v).
Proof.
  intros Hx Hy. destruct (Rlt_or_le (Rabs (rnd32 (u * v))) (bpow radix2 128)) as [L|L].
  - left. split; auto. apply mul32; auto.
  - destruct (real32_B _ _ Hx) as [a [-> [A1 A2]]]. destruct (real32_B _ _ Hy) as [b [-> [B1 B2]]].
    rewrite (mul_equiv 24 128 p24 e128).
    pose proof (Bmult_correct 24 128 p24 e128 mode_NE a b) as H. rewrite A2, B2 in H.
    change (round radix2 (fexp 24 128) (round_mode mode_NE) (u * v)) with (rnd32 (u * v)) in H.
    rewrite Rlt_bool_false in H by exact L. rewrite H. unfold binary_overflow. cbn [overflow_to_inf].
    assert (E : Rlt_bool (u * v) 0 = xorb (Bsign a) (Bsign b)).
    { assert (S0 : forall c : binary_float 24 128, is_finite c = true -> B2R c <> 0%R -> (Bsign c = true -> (B2R c < 0)%R) /\ (Bsign c = false -> (0 < B2R c)%R)).
      { intros c Fc Nc. destruct c as [s|s| |s m e Hc]; try discriminate; cbn in Nc; try (exfalso; apply Nc; reflexivity).
        cbn [Bsign B2R]. split; intros ->; cbn [cond_Zopp]; [apply F2R_lt_0|apply F2R_gt_0]; reflexivity. }
      assert (Nuv : (u * v)%R <> 0%R).
      { intros Z0. rewrite Z0 in L. rewrite (rnd_exact 0) in L by apply generic_format_0. rewrite Rabs_R0 in L. pose proof b128_pos. lra. }
      assert (Nu : u <> 0%R) by (intros ->; apply Nuv; ring). assert (Nv : v <> 0%R) by (intros ->; apply Nuv; ring).
      destruct (S0 a A1 ltac:(congruence)) as [Sa1 Sa2]. destruct (S0 b B1 ltac:(congruence)) as [Sb1 Sb2].
      rewrite A2 in *. rewrite B2 in *.
      destruct (Bsign a), (Bsign b); cbn [xorb]; (apply Rlt_bool_true || apply Rlt_bool_false);
      try specialize (Sa1 eq_refl); try specialize (Sa2 eq_refl); try specialize (Sb1 eq_refl); try specialize (Sb2 eq_refl); nra. }
    rewrite <- E. apply overflow_sign. exact L.
Qed.

(** The cast to [u32] truncates and saturates. *)
Lemma u32_real x v : real32 x v -> f32_as_u32 x = Z.max 0 (Z.min u32_max (Zfloor v)).
Proof.
  intros [V [F <-]]. destruct x as [s|s| |s m e]; try discriminate.
  - cbn [SF2R f32_as_u32]. rewrite (Zfloor_IZR 0). reflexivity.
  - destruct s; cbn [f32_as_u32].
    + unfold SF2R. cbn [cond_Zopp]. assert (H : (F2R (Float radix2 (Zneg m) e) < 0)%R) by (apply F2R_lt_0; reflexivity).
      change (- Zpos m) with (Zneg m). set (p := F2R _) in *.
      assert (P : Zfloor p <= 0) by (rewrite <- (Zfloor_IZR 0); apply Zfloor_le; lra). lia.
    + unfold SF2R. cbn [cond_Zopp].
      assert (E : Zfloor (F2R (Float radix2 (Zpos m) e)) = if 0 <=? e then Zpos m * 2 ^ e else Zpos m / 2 ^ (- e)).
      { unfold F2R. cbn [Fnum Fexp]. destruct (Z.leb_spec 0 e) as [He|He].
        - rewrite <- (IZR_Zpower radix2) by lia. rewrite <- mult_IZR. apply Zfloor_IZR.
        - rewrite <- (Z.opp_involutive e) at 1. rewrite bpow_opp, <- (IZR_Zpower radix2) by lia.
          change (IZR (Zpos m) * / IZR (radix2 ^ - e))%R with (IZR (Zpos m) / IZR (radix2 ^ - e))%R.
          rewrite Zfloor_div; [reflexivity|]. pose proof (Z.pow_pos_nonneg 2 (- e)). change (radix_val radix2) with 2. lia. }
      rewrite E. symmetry. apply Z.max_r. apply Z.min_glb; [unfold u32_max; lia|].
      destruct (Z.leb_spec 0 e); [|apply Z.div_pos; [lia|]].
      * pose proof (Z.pow_pos_nonneg 2 e). nia.
      * apply Z.pow_pos_nonneg; lia.
Qed.
Lemma floor_big v : (bpow radix2 128 <= v)%R -> u32_max <= Zfloor v.
Proof.
  intros H. apply Zfloor_lub. eapply Rle_trans; [|exact H]. rewrite <- (IZR_Zpower radix2) by lia. apply IZR_le. discriminate.
Qed.
Lemma floor_neg v : (v <= 0)%R -> Zfloor v <= 0.
Proof. intros H. rewrite <- (Zfloor_IZR 0). apply Zfloor_le. exact H. Qed.
Lemma u32_rounds x v : rounds x v -> f32_as_u32 x = Z.max 0 (Z.min u32_max (Zfloor (rnd32 v))).
Proof.
  intros [[_ H]|[[H ->]|[H ->]]].
  - apply u32_real; auto.
  - apply floor_big in H. cbn [f32_as_u32]. unfold u32_max in *. lia.
  - pose proof b128_pos. pose proof (floor_neg (rnd32 v) ltac:(lra)). cbn [f32_as_u32]. lia.
Qed.

(** The difference as f32. *)
Lemma rnd_int_bound d : Z.abs d < 2 ^ 127 -> (Rabs (rnd32 (IZR d)) < bpow radix2 128)%R.
Proof.
  intros H. apply small_lt with (2 ^ 127); [|reflexivity]. apply rnd_bound.
  - change (IZR (2 ^ 127)) with (IZR (radix2 ^ 127)). rewrite (IZR_Zpower radix2 127) by lia.
    replace (bpow radix2 127) with (IZR 1 * bpow radix2 127)%R by lra. apply fmt_scaled; lia.
  - rewrite <- abs_IZR. apply IZR_le. lia.
Qed.
Lemma diff_real d : Z.abs d < 2 ^ 127 -> real32 (int_as_f32 d) (rnd32 (IZR d)).
Proof.
  intros H. apply rnd_int_bound in H. pose proof (norm32 d 0) as M.
  replace (IZR d * bpow radix2 0)%R with (IZR d) in M by (cbn; lra). apply M. exact H.
Qed.

(** The whole scaled difference. *)
Lemma rnd_int_ge d : 1 <= d -> (1 <= rnd32 (IZR d))%R.
Proof.
  intros H. rewrite <- (rnd_exact 1); [apply rnd_le, IZR_le; auto|].
  replace 1%R with (IZR 1 * bpow radix2 0)%R by (cbn; lra). apply fmt_scaled; lia.
Qed.
Lemma rnd_int_le d : d <= -1 -> (rnd32 (IZR d) <= -1)%R.
Proof.
  intros H. pose proof (rnd_int_ge (- d) ltac:(lia)) as G. rewrite opp_IZR, rnd_opp in G. lra.
Qed.
Lemma fmt_bpow e : -149 <= e -> fmt32 (bpow radix2 e).
Proof. intros H. replace (bpow radix2 e) with (IZR 1 * bpow radix2 e)%R by lra. apply fmt_scaled; lia. Qed.
Lemma inf_mul s x v : real32 x v -> (v <> 0)%R -> SFmul 24 128 (S754_infinity s) x = S754_infinity (xorb s (Rlt_bool v 0)).
Proof.
  intros [V [F <-]] N. destruct x as [t|t| |t m e]; try discriminate.
  - exfalso. apply N. reflexivity.
  - rewrite SF2R_sign. reflexivity.
Qed.
Lemma scaled_real x v d : rounds x v -> Z.abs d < 2 ^ 127 ->
  f32_as_u32 (SFmul 24 128 x (int_as_f32 d)) =
  Z.max 0 (Z.min u32_max (Zfloor (rnd32 (rnd32 v * rnd32 (IZR d))))).
Proof.
  intros Hx Hd. pose proof (diff_real d Hd) as D. pose proof b128_pos as B.
  destruct Hx as [[_ H]|H].
  - apply u32_rounds. apply mul_rounds; auto.
  - destruct (Z.eq_dec d 0) as [->|Nd].
    + (* infinity times zero is NaN, cast to zero *)
      rewrite (rnd_exact 0) by apply generic_format_0. rewrite Rmult_0_r, (rnd_exact 0) by apply generic_format_0.
      rewrite (Zfloor_IZR 0). destruct H as [[_ ->]|[_ ->]]; reflexivity.
    + assert (Hn : rnd32 (IZR d) <> 0%R).
      { destruct (Z.le_gt_cases 1 d) as [P|P]; [pose proof (rnd_int_ge d P); lra|pose proof (rnd_int_le d ltac:(lia)); lra]. }
      assert (Big : forall p, (bpow radix2 128 <= p)%R -> Z.max 0 (Z.min u32_max (Zfloor (rnd32 p))) = u32_max).
      { intros p Hp. assert (Hr : (bpow radix2 128 <= rnd32 p)%R).
        { rewrite <- (rnd_exact (bpow radix2 128)) by (apply fmt_bpow; lia). apply rnd_le; auto. }
        apply floor_big in Hr. unfold u32_max in *; lia. }
      assert (Neg : forall p, (p <= 0)%R -> Z.max 0 (Z.min u32_max (Zfloor (rnd32 p))) = 0).
      { intros p Hp. apply rnd_neg, floor_neg in Hp. lia. }
      destruct H as [[H ->]|[H ->]]; rewrite (inf_mul _ _ _ D Hn);
        destruct (Z.le_gt_cases 1 d) as [P|P];
        [pose proof (rnd_int_ge d P) as G|pose proof (rnd_int_le d ltac:(lia)) as G
        |pose proof (rnd_int_ge d P) as G|pose proof (rnd_int_le d ltac:(lia)) as G];
        ((rewrite Rlt_bool_false by lra) || (rewrite Rlt_bool_true by lra)); cbn [xorb f32_as_u32]; symmetry;
        ((apply Big; nra) || (apply Neg; nra)).
Qed.

(** ** Error bounds *)
Definition scaled (v : R) (d : Z) : Z := Z.max 0 (Z.min u32_max (Zfloor (rnd32 (rnd32 v * rnd32 (IZR d))))).
Lemma scaled_opp v d : scaled (- v) (- d) = scaled v d.
Proof. unfold scaled. rewrite opp_IZR, !rnd_opp. f_equal. f_equal. f_equal. f_equal. ring. Qed.
Lemma rel_error x : (bpow radix2 (-126) <= x)%R ->
  (x * (1 - / 16777216) <= rnd32 x <= x * (1 + / 16777216))%R.
Proof.
  intros H. assert (Hx : (0 < x)%R) by (pose proof (bpow_gt_0 radix2 (-126)); lra).
  pose proof (relative_error_N_FLT radix2 (-149) 24 eq_refl (fun z => negb (Z.even z)) x) as E.
  rewrite (Rabs_right x) in E by lra. specialize (E H).
  change (round radix2 (FLT_exp (-149) 24) (Znearest (fun z => negb (Z.even z))) x) with (rnd32 x) in E.
  assert (E23 : bpow radix2 (-23) = (/ 8388608)%R) by (cbn; lra).
  change (- (24) + 1) with (-23) in E. rewrite E23 in E. replace (/ 2 * / 8388608)%R with (/ 16777216)%R in E by lra.
  apply Rabs_le_inv in E. lra.
Qed.
Lemma scaled_pos v d : (0 <= v)%R -> 0 <= d < 2 ^ 64 ->
  (IZR (scaled v d) <= v * IZR d * (1 + / 4194304))%R /\
  (scaled v d = u32_max \/ v * IZR d * (1 - / 4194304) < IZR (scaled v d + 1))%R.
Proof.
  intros Hv Hd. set (P := rnd32 (rnd32 v * rnd32 (IZR d))).
  assert (HD0 : (0 <= IZR d)%R) by (apply (IZR_le 0); lia).
  assert (Hvd : (0 <= v * IZR d)%R) by nra.
  assert (Low : forall q, (0 <= q)%R -> (IZR (Z.max 0 (Z.min u32_max (Zfloor q))) <= q)%R /\
                (Z.max 0 (Z.min u32_max (Zfloor q)) = u32_max \/ q < IZR (Z.max 0 (Z.min u32_max (Zfloor q)) + 1))%R).
  { intros q Hq. pose proof (Zfloor_lb q) as L. pose proof (Zfloor_ub q) as U.
    assert (F : 0 <= Zfloor q) by (apply Zfloor_lub; auto).
    destruct (Z.le_gt_cases u32_max (Zfloor q)) as [G|G].
    - replace (Z.max 0 (Z.min u32_max (Zfloor q))) with u32_max by (unfold u32_max in *; lia).
      split; auto. apply IZR_le in G. lra.
    - replace (Z.max 0 (Z.min u32_max (Zfloor q))) with (Zfloor q) by lia. split; auto. right. rewrite plus_IZR. auto. }
  assert (HP : (0 <= P)%R).
  { apply rnd_sign. apply Rmult_le_pos; apply rnd_sign; auto. }
  destruct (Low P HP) as [L1 L2]. fold P in L1, L2. change (Z.max 0 (Z.min u32_max (Zfloor P))) with (scaled v d) in *.
  (* the tiny case: nothing moves *)
  assert (Tiny : (P < 1)%R -> (v * IZR d < 1)%R ->
    (IZR (scaled v d) <= v * IZR d * (1 + / 4194304))%R /\
    (scaled v d = u32_max \/ v * IZR d * (1 - / 4194304) < IZR (scaled v d + 1))%R).
  { intros T1 T2. assert (E : scaled v d = 0).
    { change (scaled v d) with (Z.max 0 (Z.min u32_max (Zfloor P))). replace (Zfloor P) with 0; [reflexivity|].
      symmetry. apply Zfloor_imp. cbn. lra. }
    rewrite E. change (0 + 1) with 1. split; [nra|right; nra]. }
  destruct (Z.eq_dec d 0) as [->|Nd].
  { apply Tiny; [|lra]. unfold P. rewrite (rnd_exact 0) by apply generic_format_0. rewrite Rmult_0_r.
    rewrite (rnd_exact 0) by apply generic_format_0. lra. }
  assert (B126 : (bpow radix2 (-126) <= 1)%R) by (apply (bpow_le radix2 (-126) 0); lia).
  assert (Hd1 : (1 <= IZR d)%R) by (apply (IZR_le 1); lia).
  assert (HdM : (IZR d <= bpow radix2 64)%R) by (rewrite <- (IZR_Zpower radix2) by lia; apply IZR_le; cbn; lia).
  assert (HbM : (rnd32 (IZR d) <= bpow radix2 64)%R).
  { rewrite <- (rnd_exact (bpow radix2 64)) by (apply fmt_bpow; lia). apply rnd_le; auto. }
  destruct (rel_error (IZR d) ltac:(lra)) as [D1 D2].
  assert (B62 : (bpow radix2 (-126) * bpow radix2 64 < 1)%R) by (rewrite <- bpow_plus; apply (bpow_lt radix2 _ 0); reflexivity).
  assert (F62 : fmt32 (bpow radix2 (-62))) by (apply fmt_bpow; lia).
  assert (B62' : (bpow radix2 (-126) * bpow radix2 64 = bpow radix2 (-62))%R) by (rewrite <- bpow_plus; reflexivity).
  assert (Hb0 : (0 <= rnd32 (IZR d))%R) by (apply rnd_sign; lra).
  assert (Ha0 : (0 <= rnd32 v)%R) by (apply rnd_sign; lra).
  pose proof (bpow_gt_0 radix2 (-126)) as P126. pose proof (bpow_gt_0 radix2 64) as P64.
  destruct (Rlt_or_le v (bpow radix2 (-126))) as [Sm|Sm].
  { apply Tiny.
    - assert (Ha : (rnd32 v <= bpow radix2 (-126))%R).
      { rewrite <- (rnd_exact (bpow radix2 (-126))) by (apply fmt_bpow; lia). apply rnd_le; lra. }
      apply Rle_lt_trans with (bpow radix2 (-62)); [|lra].
      unfold P. rewrite <- (rnd_exact (bpow radix2 (-62))) by exact F62. apply rnd_le. rewrite <- B62'.
      apply Rmult_le_compat; auto.
    - eapply Rle_lt_trans; [|exact B62]. apply Rmult_le_compat; lra. }
  destruct (rel_error v Sm) as [V1 V2].
  set (a := rnd32 v) in *. set (b := rnd32 (IZR d)) in *. set (D := IZR d) in *.
  assert (AB1 : (v * D * ((1 - / 16777216) * (1 - / 16777216)) <= a * b)%R).
  { replace (v * D * ((1 - / 16777216) * (1 - / 16777216)))%R with ((v * (1 - / 16777216)) * (D * (1 - / 16777216)))%R by ring.
    apply Rmult_le_compat; lra. }
  assert (AB2 : (a * b <= v * D * ((1 + / 16777216) * (1 + / 16777216)))%R).
  { replace (v * D * ((1 + / 16777216) * (1 + / 16777216)))%R with ((v * (1 + / 16777216)) * (D * (1 + / 16777216)))%R by ring.
    apply Rmult_le_compat; lra. }
  destruct (Rlt_or_le (a * b) (bpow radix2 (-126))) as [Sab|Sab].
  { apply Tiny.
    - apply Rle_lt_trans with (bpow radix2 (-126)).
      + unfold P. rewrite <- (rnd_exact (bpow radix2 (-126))) by (apply fmt_bpow; lia). apply rnd_le; lra.
      + apply (bpow_lt radix2 (-126) 0). lia.
    - assert (Bh : (bpow radix2 (-126) <= / 2)%R) by (apply (bpow_le radix2 (-126) (-1)); lia). nra. }
  destruct (rel_error (a * b) Sab) as [P1 P2]. fold P in P1, P2.
  assert (U : (P <= v * D * (1 + / 4194304))%R).
  { eapply Rle_trans; [exact P2|]. eapply Rle_trans; [apply Rmult_le_compat_r; [lra|exact AB2]|].
    rewrite (Rmult_assoc (v * D)). apply Rmult_le_compat_l; [nra|]. lra. }
  assert (W : (v * D * (1 - / 4194304) <= P)%R).
  { eapply Rle_trans; [|exact P1].
    apply Rle_trans with (v * D * ((1 - / 16777216) * (1 - / 16777216)) * (1 - / 16777216))%R;
      [|apply Rmult_le_compat_r; [lra|exact AB1]].
    rewrite (Rmult_assoc (v * D)). apply Rmult_le_compat_l; [nra|]. lra. }
  split; [lra|]. destruct L2 as [L2|L2]; [left; auto|right; lra].
Qed.
Lemma scaled_bounds v d : Z.abs d < 2 ^ 64 ->
  0 <= scaled v d <= u32_max /\
  ((v * IZR d <= 0)%R -> scaled v d = 0) /\
  ((0 <= v * IZR d)%R ->
   (IZR (scaled v d) <= v * IZR d * (1 + / 4194304))%R /\
   (scaled v d = u32_max \/ v * IZR d * (1 - / 4194304) < IZR (scaled v d + 1))%R).
Proof.
  intros Hd. split; [unfold scaled, u32_max; lia|]. split.
  - intros H. unfold scaled. assert (N : (rnd32 (rnd32 v * rnd32 (IZR d)) <= 0)%R).
    { apply rnd_neg. destruct (Rle_or_lt 0 v) as [A|A]; destruct (Z.le_gt_cases 0 d) as [B|B].
      - apply IZR_le in B. pose proof (rnd_sign _ A). pose proof (rnd_sign _ B).
        destruct (Req_dec v 0) as [->|Nv].
        + rewrite (rnd_exact 0) by apply generic_format_0. lra.
        + assert (E : IZR d = 0%R) by nra. rewrite E, (rnd_exact 0) by apply generic_format_0. lra.
      - pose proof (rnd_sign _ A). apply IZR_lt in B. pose proof (rnd_neg (IZR d) ltac:(lra)). nra.
      - apply IZR_le in B. pose proof (rnd_neg v ltac:(lra)). pose proof (rnd_sign _ B). nra.
      - exfalso. apply IZR_lt in B. nra. }
    apply floor_neg in N. lia.
  - intros H. destruct (Rle_or_lt 0 v) as [A|A]; destruct (Z.le_gt_cases 0 d) as [B|B].
    + apply scaled_pos; auto. lia.
    + assert (v = 0)%R by (apply IZR_lt in B; nra). subst v. rewrite <- scaled_opp, Ropp_0.
      destruct (scaled_pos 0 (- d) ltac:(lra) ltac:(lia)) as [G1 G2].
      rewrite Rmult_0_l in *. auto.
    + assert (E : d = 0) by (apply eq_IZR; apply IZR_le in B; nra). subst d. 
      destruct (scaled_pos 0 0 ltac:(lra) ltac:(lia)) as [G1 G2].
      assert (Z0 : forall w, scaled w 0 = 0).
      { intros w. unfold scaled. rewrite (rnd_exact (IZR 0)) by apply generic_format_0. rewrite Rmult_0_r, (rnd_exact 0) by apply generic_format_0.
        rewrite (Zfloor_IZR 0). reflexivity. }
      rewrite Z0. change (0 + 1) with 1. rewrite !Rmult_0_r, !Rmult_0_l. split; [lra|right; lra].
    + rewrite <- scaled_opp. destruct (scaled_pos (- v) (- d) ltac:(lra) ltac:(lia)) as [G1 G2].
      rewrite opp_IZR in *. replace (- v * - IZR d)%R with (v * IZR d)%R in * by ring. auto.
Qed.
Lemma scaled_mono u v d : (u <= v)%R -> (0 <= d -> scaled u d <= scaled v d) /\ (d <= 0 -> scaled v d <= scaled u d).
Proof.
  assert (M : forall u v d, (u <= v)%R -> 0 <= d -> scaled u d <= scaled v d).
  { clear. intros u v d H Hd. unfold scaled.
    assert (L : Zfloor (rnd32 (rnd32 u * rnd32 (IZR d))) <= Zfloor (rnd32 (rnd32 v * rnd32 (IZR d)))); [|lia].
    apply Zfloor_le, rnd_le. apply Rmult_le_compat_r; [apply rnd_sign, (IZR_le 0); auto|apply rnd_le; auto]. }
  intros H. split; intros Hd; [apply M; auto|].
  rewrite <- (scaled_opp u), <- (scaled_opp v). apply M; [lra|lia].
Qed.
