(** The real values of the f32 arithmetic of FloatBits.v.  The proofs use Flocq
    (its results on IEEE 754 operations rest on the standard library's axioms of
    the reals); the statements of the theorems do not mention it. *)
From Verif Require Import FloatBits.
From Coq Require Import ZArith Reals Lia Lra Floats.SpecFloat Bool.
From Flocq Require Import Core IEEE754.BinarySingleNaN.
Open Scope Z_scope.

(** ** Operations of SpecFloat are those of Flocq *)
Section Equiv.
Context (prec emax : Z) (Hprec : Prec_gt_0 prec) (Hmax : Prec_lt_emax prec emax).

Lemma round_nearest_even_equiv s m l : round_nearest_even m l = choice_mode mode_NE s m l.
Proof.
  case l; [reflexivity|intro c]. case c; [ | reflexivity..].
  now simpl; unfold Round.cond_incr; case Z.even.
Qed.
Lemma binary_round_aux_equiv sx mx ex lx :
  SpecFloat.binary_round_aux prec emax sx mx ex lx = BinarySingleNaN.binary_round_aux prec emax mode_NE sx mx ex lx.
Proof.
  unfold SpecFloat.binary_round_aux, BinarySingleNaN.binary_round_aux.
  set (mrse' := shr_fexp _ _ _ _ _). case mrse'; intros mrs' e'; simpl.
  now rewrite (round_nearest_even_equiv sx).
Qed.
Lemma binary_round_equiv s m e :
  SpecFloat.binary_round prec emax s m e = BinarySingleNaN.binary_round prec emax mode_NE s m e.
Proof.
  unfold SpecFloat.binary_round, BinarySingleNaN.binary_round, shl_align_fexp.
  set (mez := shl_align _ _ _); case mez as [mz ez]. apply binary_round_aux_equiv.
Qed.
Lemma binary_normalize_equiv m e szero :
  SpecFloat.binary_normalize prec emax m e szero
  = B2SF (BinarySingleNaN.binary_normalize prec emax Hprec Hmax mode_NE m e szero).
Proof.
  case m as [ | p | p].
  - now simpl.
  - simpl; rewrite B2SF_SF2B; apply binary_round_equiv.
  - simpl; rewrite B2SF_SF2B; apply binary_round_equiv.
Qed.
Lemma mul_equiv (x y : binary_float prec emax) :
  SFmul prec emax (B2SF x) (B2SF y) = B2SF (Bmult mode_NE x y).
Proof.
  case x as [sx|sx| |sx mx ex Bx]; case y as [sy|sy| |sy my ey By]; [now trivial.. | ].
  simpl. rewrite B2SF_SF2B. apply binary_round_aux_equiv.
Qed.
Lemma add_equiv (x y : binary_float prec emax) :
  SFadd prec emax (B2SF x) (B2SF y) = B2SF (Bplus mode_NE x y).
Proof.
  case x as [sx|sx| |sx mx ex Bx]; case y as [sy|sy| |sy my ey By];
    [now (trivial || simpl; case Bool.eqb).. | ].
  apply binary_normalize_equiv.
Qed.
Lemma sub_equiv (x y : binary_float prec emax) :
  SFsub prec emax (B2SF x) (B2SF y) = B2SF (Bminus mode_NE x y).
Proof.
  case x as [sx|sx| |sx mx ex Bx]; case y as [sy|sy| |sy my ey By];
    [now (trivial || simpl; case Bool.eqb).. | ].
  simpl. unfold Zminus. rewrite <- cond_Zopp_negb. apply binary_normalize_equiv.
Qed.
Lemma div_equiv (x y : binary_float prec emax) :
  SFdiv prec emax (B2SF x) (B2SF y) = B2SF (Bdiv mode_NE x y).
Proof.
  case x as [sx|sx| |sx mx ex Bx]; case y as [sy|sy| |sy my ey By];
    [now (trivial || simpl; case Bool.eqb).. | ].
  simpl. rewrite B2SF_SF2B. set (melz := SFdiv_core_binary _ _ _ _ _ _).
  case melz as [[mz ez] lz]. apply binary_round_aux_equiv.
Qed.
End Equiv.

(** ** binary32 *)
#[local] Instance p24 : Prec_gt_0 24 := eq_refl _.
#[local] Instance e128 : Prec_lt_emax 24 128 := eq_refl _.
#[local] Instance p24' : FLX.Prec_gt_0 24 := eq_refl _.

(** The rounding of binary32: to the nearest, ties to even. *)
Definition rnd32 (x : R) : R := round radix2 (FLT_exp (-149) 24) ZnearestE x.
(** [x] is a valid finite binary32 number with value [v]. *)
Definition real32 (x : spec_float) (v : R) : Prop :=
  valid_binary 24 128 x = true /\ is_finite_SF x = true /\ SF2R radix2 x = v.

Lemma real32_B x v : real32 x v -> exists b : binary_float 24 128, x = B2SF b /\ is_finite b = true /\ B2R b = v.
Proof.
  intros [H1 [H2 H3]]. exists (SF2B x H1). rewrite B2SF_SF2B, is_finite_SF2B, B2R_SF2B. auto.
Qed.
Lemma B_real32 (b : binary_float 24 128) v : is_finite b = true -> B2R b = v -> real32 (B2SF b) v.
Proof.
  intros H1 H2. split; [apply valid_binary_B2SF|]. split; [rewrite is_finite_SF_B2SF; auto|].
  rewrite SF2R_B2SF. auto.
Qed.

Lemma mul32 x y u v : real32 x u -> real32 y v -> (Rabs (rnd32 (u * v)) < bpow radix2 128)%R ->
  real32 (SFmul 24 128 x y) (rnd32 (u * v)).
Proof.
  intros Hx Hy Hr. destruct (real32_B _ _ Hx) as [a [-> [A1 A2]]]. destruct (real32_B _ _ Hy) as [b [-> [B1 B2]]].
  rewrite (mul_equiv 24 128 p24 e128).
  pose proof (Bmult_correct 24 128 p24 e128 mode_NE a b) as H. rewrite A2, B2 in H.
  change (round radix2 (fexp 24 128) (round_mode mode_NE) (u * v)) with (rnd32 (u * v)) in H.
  rewrite Rlt_bool_true in H by exact Hr. destruct H as [H1 [H2 _]].
  apply B_real32; auto. rewrite H2, A1, B1. reflexivity.
Qed.
Lemma add32 x y u v : real32 x u -> real32 y v -> (Rabs (rnd32 (u + v)) < bpow radix2 128)%R ->
  real32 (SFadd 24 128 x y) (rnd32 (u + v)).
Proof.
  intros Hx Hy Hr. destruct (real32_B _ _ Hx) as [a [-> [A1 A2]]]. destruct (real32_B _ _ Hy) as [b [-> [B1 B2]]].
  rewrite (add_equiv 24 128 p24 e128).
  pose proof (Bplus_correct 24 128 p24 e128 mode_NE a b A1 B1) as H. rewrite A2, B2 in H.
  change (round radix2 (fexp 24 128) (round_mode mode_NE) (u + v)) with (rnd32 (u + v)) in H.
  rewrite Rlt_bool_true in H by exact Hr. destruct H as [H1 [H2 _]].
  apply B_real32; auto.
Qed.
Lemma sub32 x y u v : real32 x u -> real32 y v -> (Rabs (rnd32 (u - v)) < bpow radix2 128)%R ->
  real32 (SFsub 24 128 x y) (rnd32 (u - v)).
Proof.
  intros Hx Hy Hr. destruct (real32_B _ _ Hx) as [a [-> [A1 A2]]]. destruct (real32_B _ _ Hy) as [b [-> [B1 B2]]].
  rewrite (sub_equiv 24 128 p24 e128).
  pose proof (Bminus_correct 24 128 p24 e128 mode_NE a b A1 B1) as H. rewrite A2, B2 in H.
  change (round radix2 (fexp 24 128) (round_mode mode_NE) (u - v)) with (rnd32 (u - v)) in H.
  rewrite Rlt_bool_true in H by exact Hr. destruct H as [H1 [H2 _]].
  apply B_real32; auto.
Qed.
Lemma div32 x y u v : real32 x u -> real32 y v -> v <> 0%R -> (Rabs (rnd32 (u / v)) < bpow radix2 128)%R ->
  real32 (SFdiv 24 128 x y) (rnd32 (u / v)).
Proof.
  intros Hx Hy Hv Hr. destruct (real32_B _ _ Hx) as [a [-> [A1 A2]]]. destruct (real32_B _ _ Hy) as [b [-> [B1 B2]]].
  rewrite (div_equiv 24 128 p24 e128).
  assert (Hb : B2R b <> 0%R) by (rewrite B2; auto).
  pose proof (Bdiv_correct 24 128 p24 e128 mode_NE a b Hb) as H. rewrite A2, B2 in H.
  change (round radix2 (fexp 24 128) (round_mode mode_NE) (u / v)) with (rnd32 (u / v)) in H.
  rewrite Rlt_bool_true in H by exact Hr. destruct H as [H1 [H2 _]].
  apply B_real32; auto. rewrite H2. auto.
Qed.
Lemma norm32 m e : (Rabs (rnd32 (IZR m * bpow radix2 e)) < bpow radix2 128)%R ->
  real32 (SpecFloat.binary_normalize 24 128 m e false) (rnd32 (IZR m * bpow radix2 e)).
Proof.
  intros Hr. rewrite (binary_normalize_equiv 24 128 p24 e128).
  pose proof (binary_normalize_correct 24 128 p24 e128 mode_NE m e false) as H. cbv zeta in H.
  change (round radix2 (fexp 24 128) (round_mode mode_NE) (F2R {| Fnum := m; Fexp := e |})) with (rnd32 (IZR m * bpow radix2 e)) in H.
  rewrite Rlt_bool_true in H by exact Hr. destruct H as [H1 [H2 _]].
  apply B_real32; auto.
Qed.

(** ** Exact values *)
Definition fmt32 (x : R) : Prop := generic_format radix2 (FLT_exp (-149) 24) x.
Lemma fmt_scaled m e : Z.abs m < 16777216 -> -149 <= e -> fmt32 (IZR m * bpow radix2 e).
Proof.
  intros Hm He. apply generic_format_FLT. exists (Float radix2 m e); auto.
Qed.
Lemma fmt_scaled_le m e : Z.abs m <= 16777216 -> -149 <= e -> fmt32 (IZR m * bpow radix2 e).
Proof.
  intros Hm He. destruct (Z.eq_dec (Z.abs m) 16777216) as [E|E]; [|apply fmt_scaled; lia].
  replace (IZR m * bpow radix2 e)%R with (IZR (Z.sgn m * 8388608) * bpow radix2 (e + 1))%R.
  - apply fmt_scaled; lia.
  - rewrite bpow_plus, mult_IZR. change (bpow radix2 1) with 2%R.
    assert (Em : m = 16777216 \/ m = - 16777216) by lia. destruct Em as [-> | ->]; cbn [Z.sgn]; lra.
Qed.
Lemma rnd_exact x : fmt32 x -> rnd32 x = x.
Proof. intros H. apply round_generic; auto. apply valid_rnd_N. Qed.
Lemma rnd_le x y : (x <= y)%R -> (rnd32 x <= rnd32 y)%R.
Proof. intros H. apply round_le; auto; [apply FLT_exp_valid; reflexivity|apply valid_rnd_N]. Qed.
Lemma rnd_bound x b : fmt32 b -> (Rabs x <= b)%R -> (Rabs (rnd32 x) <= b)%R.
Proof.
  intros Hb H. apply Rabs_le. apply Rabs_le_inv in H. destruct H as [H1 H2]. split.
  - rewrite <- (rnd_exact (-b)) by (apply generic_format_opp; auto). apply rnd_le. auto.
  - rewrite <- (rnd_exact b) by auto. apply rnd_le. auto.
Qed.
Lemma small_lt (x : R) n : (Rabs x <= IZR n)%R -> n < 2 ^ 128 -> (Rabs x < bpow radix2 128)%R.
Proof.
  intros H Hn. eapply Rle_lt_trans; [exact H|]. rewrite <- (IZR_Zpower radix2 128) by lia. apply IZR_lt. exact Hn.
Qed.

(** ** Bit patterns *)
Lemma digits_bounds p : Zpos (digits2_pos p) = Z.log2 (Zpos p) + 1.
Proof.
  assert (H : forall p, 2 ^ (Zpos (digits2_pos p) - 1) <= Zpos p < 2 ^ Zpos (digits2_pos p)).
  { clear. induction p as [p IH|p IH|]; cbn [digits2_pos].
    - rewrite Pos2Z.inj_succ. replace (Z.succ (Z.pos (digits2_pos p)) - 1) with (Z.succ (Z.pos (digits2_pos p) - 1)) by lia.
      rewrite !Z.pow_succ_r by lia. lia.
    - rewrite Pos2Z.inj_succ. replace (Z.succ (Z.pos (digits2_pos p)) - 1) with (Z.succ (Z.pos (digits2_pos p) - 1)) by lia.
      rewrite !Z.pow_succ_r by lia. lia.
    - cbn. lia. }
  assert (E : Z.log2 (Zpos p) = Zpos (digits2_pos p) - 1).
  { apply Z.log2_unique; [lia|]. replace (Z.succ (Zpos (digits2_pos p) - 1)) with (Zpos (digits2_pos p)) by lia. apply H. }
  lia.
Qed.
(** A finite binary32 number is normal or subnormal. *)
Lemma valid_shape s m e : valid_binary 24 128 (S754_finite s m e) = true <->
  (8388608 <= Zpos m < 16777216 /\ -149 <= e <= 104) \/ (Zpos m < 8388608 /\ e = -149).
Proof.
  cbn [valid_binary]. unfold bounded, canonical_mantissa, fexp, SpecFloat.emin.
  rewrite andb_true_iff, <- Zeq_is_eq_bool, Z.leb_le, digits_bounds.
  assert (H1 : Zpos m < 8388608 <-> Z.log2 (Zpos m) <= 22).
  { change 8388608 with (2 ^ 23). rewrite (Z.log2_lt_pow2 (Zpos m) 23) by lia. lia. }
  assert (H2 : Zpos m < 16777216 <-> Z.log2 (Zpos m) <= 23).
  { change 16777216 with (2 ^ 24). rewrite (Z.log2_lt_pow2 (Zpos m) 24) by lia. lia. }
  pose proof (Z.log2_nonneg (Zpos m)). lia.
Qed.
Lemma decode_encode x : valid_binary 24 128 x = true -> f32_decode (f32_encode x) = x.
Proof.
  assert (D : forall s e m, 0 <= e < 256 -> 0 <= m < 8388608 ->
    ((2147483648 <=? f32_sign s + (e * 8388608 + m)) = s) /\
    ((f32_sign s + (e * 8388608 + m)) / 8388608) mod 256 = e /\
    (f32_sign s + (e * 8388608 + m)) mod 8388608 = m).
  { intros s e m He Hm.
    assert (E1 : (f32_sign s + (e * 8388608 + m)) / 8388608 = (if s then 256 else 0) + e).
    { symmetry. apply Z.div_unique with m; [lia|]. destruct s; cbn [f32_sign]; lia. }
    split; [|split].
    - destruct s; cbn [f32_sign]; [apply Z.leb_le|apply Z.leb_gt]; lia.
    - rewrite E1. destruct s.
      + symmetry. apply Z.mod_unique with 1; lia.
      + symmetry. apply Z.mod_unique with 0; lia.
    - symmetry. apply Z.mod_unique with ((if s then 256 else 0) + e); [lia|]. destruct s; cbn [f32_sign]; lia. }
  intros V. destruct x as [s|s| |s m e].
  - cbn [f32_encode]. destruct (D s 0 0 ltac:(lia) ltac:(lia)) as [D1 [D2 D3]].
    rewrite Z.mul_0_l, !Z.add_0_r in *. unfold f32_decode. rewrite D1, D2, D3. reflexivity.
  - cbn [f32_encode]. destruct (D s 255 0 ltac:(lia) ltac:(lia)) as [D1 [D2 D3]].
    rewrite Z.add_0_r in *. unfold f32_decode. rewrite D1, D2, D3. reflexivity.
  - reflexivity.
  - apply valid_shape in V. cbn [f32_encode]. destruct V as [[V1 V2]|[V1 ->]].
    + replace (Zpos m <? 8388608) with false by (symmetry; apply Z.ltb_ge; lia).
      destruct (D s (e + 150) (Zpos m - 8388608) ltac:(lia) ltac:(lia)) as [D1 [D2 D3]].
      unfold f32_decode. rewrite D1, D2, D3.
      replace (e + 150 =? 255) with false by (symmetry; apply Z.eqb_neq; lia).
      replace (e + 150 =? 0) with false by (symmetry; apply Z.eqb_neq; lia).
      replace (Zpos m - 8388608 + 8388608) with (Zpos m) by lia.
      f_equal. lia.
    + replace (Zpos m <? 8388608) with true by (symmetry; apply Z.ltb_lt; lia).
      destruct (D s 0 (Zpos m) ltac:(lia) ltac:(lia)) as [D1 [D2 D3]]. rewrite Z.mul_0_l, Z.add_0_l in *.
      unfold f32_decode. rewrite D1, D2, D3. reflexivity.
Qed.
Lemma decode_valid b : valid_binary 24 128 (f32_decode b) = true.
Proof.
  unfold f32_decode. pose proof (Z.mod_pos_bound (b / 8388608) 256 ltac:(lia)) as He.
  pose proof (Z.mod_pos_bound b 8388608 ltac:(lia)) as Hm.
  set (e := (b / 8388608) mod 256) in *. set (m := b mod 8388608) in *.
  destruct (Z.eqb_spec e 255) as [E|E].
  { destruct (m =? 0); reflexivity. }
  destruct (Z.eqb_spec e 0) as [E0|E0].
  - destruct m as [|p|p]; try reflexivity. apply valid_shape. lia.
  - destruct (m + 8388608) as [|p|p] eqn:Ep; try reflexivity. apply valid_shape. lia.
Qed.
