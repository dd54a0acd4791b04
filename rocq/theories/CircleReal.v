(** The real values of the coordinates of the circle game. *)
From Verif Require Import FloatBits FloatSpec FloatReal CircleSpec.
From Coq Require Import ZArith QArith Qreals Qabs Reals Lia Lra Floats.SpecFloat.
From Flocq Require Import Core IEEE754.BinarySingleNaN.
Open Scope Z_scope.
#[local] Instance prec24 : Prec_gt_0 24 := eq_refl _.

Lemma Q2R_pow2 e : Q2R ((2 # 1) ^ e) = bpow radix2 e.
Proof.
  rewrite RMicromega.Q2RpowerRZ by (left; discriminate). rewrite bpow_powerRZ.
  replace (Q2R (2 # 1)) with 2%R by (unfold Q2R; cbn; lra). reflexivity.
Qed.
Lemma Q2R_Z n : Q2R (inject_Z n) = IZR n.
Proof. unfold Q2R, inject_Z. cbn. lra. Qed.
(** The bit pattern [b] is a finite number with value [v]. *)
Definition bit32 (b : Z) (v : R) : Prop := 0 <= b < 2 ^ 32 /\ real32 (f32_decode b) v.

(** The decoder reads the fields. *)
Lemma decode_fields b : 0 <= b < 2 ^ 32 ->
  f32_negative b = (2147483648 <=? b) /\ f32_exponent b = (b / 8388608) mod 256 /\ f32_fraction b = b mod 8388608.
Proof.
  intros Hb. unfold f32_negative, f32_exponent, f32_fraction. split; [|split].
  - rewrite Z.testbit_eqb by lia. change (2 ^ 31) with 2147483648. change (2 ^ 32) with 4294967296 in Hb.
    destruct (Z.leb_spec 2147483648 b) as [H|H].
    + replace (b / 2147483648) with 1; [reflexivity|]. apply Z.div_unique with (b - 2147483648); lia.
    + rewrite Z.div_small by lia. reflexivity.
  - change 255 with (Z.ones 8). rewrite Z.land_ones, Z.shiftr_div_pow2 by lia. reflexivity.
  - change (2 ^ 23 - 1) with (Z.ones 23). rewrite Z.land_ones by lia. reflexivity.
Qed.
Lemma is_decoded b q : 0 <= b < 2 ^ 32 -> f32_is b q <->
  match f32_decode b with
  | S754_zero _ => q == 0
  | S754_finite s m e => q == inject_Z (if s then Zneg m else Zpos m) * (2 # 1) ^ e
  | _ => False
  end%Q.
Proof.
  intros Hb. destruct (decode_fields b Hb) as [F1 [F2 F3]]. unfold f32_is. rewrite F1, F2, F3. unfold f32_decode.
  assert (Q0 : forall (s : bool) x, ((if s then -1 else 1) * (inject_Z 0 * x) == 0)%Q) by (intros [|] x; ring).
  assert (Q1 : forall (s : bool) p e, ((if s then -1 else 1) * (inject_Z (Zpos p) * (2 # 1) ^ e) == inject_Z (if s then Zneg p else Zpos p) * (2 # 1) ^ e)%Q).
  { intros [|] p e; [change (Zneg p) with (- Zpos p); rewrite inject_Z_opp|]; ring. }
  pose proof (Z.mod_pos_bound b 8388608 ltac:(lia)) as Hm.
  set (s := 2147483648 <=? b). set (e := (b / 8388608) mod 256). set (m := b mod 8388608) in *.
  destruct (Z.eqb_spec e 255) as [E|E].
  { split; [intros [_ [H _]]; contradiction|]. destruct (m =? 0); intros []. }
  destruct (Z.eq_dec e 0) as [E0|E0].
  - replace (e =? 0) with true by (symmetry; apply Z.eqb_eq; auto). destruct m as [|p|p]; [| |lia].
    + rewrite Q0. tauto.
    + rewrite Q1. tauto.
  - replace (e =? 0) with false by (symmetry; apply Z.eqb_neq; auto). rewrite (Z.add_comm m).
    change (2 ^ 23) with 8388608. destruct (8388608 + m) as [|p|p] eqn:Ep; [lia| |lia]. rewrite Q1. tauto.
Qed.
Lemma is_real b q : f32_is b q <-> bit32 b (Q2R q).
Proof.
  unfold bit32. split.
  - intros H. assert (Hb : 0 <= b < 2 ^ 32) by apply H. split; auto. apply (is_decoded b q Hb) in H.
    unfold real32. pose proof (decode_valid b) as V. destruct (f32_decode b) as [s|s| |s m e]; try contradiction.
    + cbn [is_finite_SF SF2R]. split; auto. split; auto. rewrite (Qeq_eqR _ _ H). unfold Q2R; cbn; lra.
    + split; auto. split; auto. rewrite (Qeq_eqR _ _ H), Q2R_mult, Q2R_Z, Q2R_pow2. destruct s; reflexivity.
  - intros [Hb H]. apply (is_decoded b q Hb). destruct H as [_ [F H]]. destruct (f32_decode b) as [s|s| |s m e]; try discriminate.
    + apply eqR_Qeq. rewrite <- H. unfold Q2R; cbn; lra.
    + apply eqR_Qeq. rewrite <- H, Q2R_mult, Q2R_Z, Q2R_pow2. destruct s; reflexivity.
Qed.
(** Every finite value is some rational. *)
Lemma real_is b v : bit32 b v -> exists q, f32_is b q /\ Q2R q = v.
Proof.
  intros [Hb H].
  destruct (f32_decode b) as [s|s| |s m e] eqn:E.
  2,3: destruct H as [_ [H _]]; discriminate.
  - exists 0%Q. split; [apply (is_decoded b _ Hb); rewrite E; reflexivity|]. destruct H as [_ [_ <-]]. cbn. unfold Q2R; cbn; lra.
  - exists (inject_Z (if s then Zneg m else Zpos m) * (2 # 1) ^ e)%Q.
    split; [apply (is_decoded b _ Hb); rewrite E; reflexivity|].
    destruct H as [_ [_ <-]]. rewrite Q2R_mult, Q2R_Z, Q2R_pow2. destruct s; reflexivity.
Qed.
Lemma encode_range x : valid_binary 24 128 x = true -> 0 <= f32_encode x < 2 ^ 32.
Proof.
  change (2 ^ 32) with 4294967296. intros V. destruct x as [s|s| |s m e]; cbn [f32_encode]; try (destruct s; cbn [f32_sign]; lia).
  - lia.
  - apply valid_shape in V. destruct (Z.ltb_spec (Zpos m) 8388608); destruct s; cbn [f32_sign]; lia.
Qed.
Lemma encoded x v : real32 x v -> bit32 (f32_encode x) v.
Proof. intros H. split; [apply encode_range, H|]. rewrite decode_encode by apply H. exact H. Qed.
Lemma fmt_real x v : real32 x v -> fmt32 v.
Proof.
  intros H. destruct (real32_B _ _ H) as [b [_ [_ <-]]]. exact (generic_format_B2R 24 128 b).
Qed.

(** ** The operations on bit patterns *)
Lemma bits_mul a b u v : bit32 a u -> bit32 b v ->
  (Rabs (rnd32 (u * v)) < bpow radix2 128)%R -> bit32 (f32_mul a b) (rnd32 (u * v)).
Proof. intros [_ A] [_ B] H. apply encoded. exact (mul32 _ _ _ _ A B H). Qed.
Lemma bits_add a b u v : bit32 a u -> bit32 b v ->
  (Rabs (rnd32 (u + v)) < bpow radix2 128)%R -> bit32 (f32_add a b) (rnd32 (u + v)).
Proof. intros [_ A] [_ B] H. apply encoded. exact (add32 _ _ _ _ A B H). Qed.
Lemma bits_sub a b u v : bit32 a u -> bit32 b v ->
  (Rabs (rnd32 (u - v)) < bpow radix2 128)%R -> bit32 (f32_sub a b) (rnd32 (u - v)).
Proof. intros [_ A] [_ B] H. apply encoded. exact (sub32 _ _ _ _ A B H). Qed.
Lemma bits_div a b u v : bit32 a u -> bit32 b v -> v <> 0%R ->
  (Rabs (rnd32 (u / v)) < bpow radix2 128)%R -> bit32 (f32_div a b) (rnd32 (u / v)).
Proof. intros [_ A] [_ B] Hv H. apply encoded. exact (div32 _ _ _ _ A B Hv H). Qed.

(** Exact results: the value is [m * 2^e] with a short mantissa. *)
Lemma exact_lt m e : Z.abs m <= 16777216 -> -149 <= e <= 0 ->
  rnd32 (IZR m * bpow radix2 e) = (IZR m * bpow radix2 e)%R /\ (Rabs (rnd32 (IZR m * bpow radix2 e)) < bpow radix2 128)%R.
Proof.
  intros Hm He. assert (E : rnd32 (IZR m * bpow radix2 e) = (IZR m * bpow radix2 e)%R).
  { apply rnd_exact, fmt_scaled_le; lia. }
  split; auto. rewrite E. apply small_lt with 16777216; [|reflexivity].
  rewrite Rabs_mult, <- abs_IZR, (Rabs_right (bpow radix2 e)) by (apply Rle_ge, bpow_ge_0).
  assert (B : (bpow radix2 e <= 1)%R) by (apply (bpow_le radix2 e 0); lia).
  apply IZR_le in Hm. pose proof (bpow_ge_0 radix2 e). pose proof (IZR_le 0 (Z.abs m) ltac:(lia)). nra.
Qed.
Lemma half_real : bit32 half (1 / 2).
Proof. split; [split; reflexivity || discriminate|]. split; [apply decode_valid|]. split; [reflexivity|]. rewrite (proj1 circle_constants). unfold SF2R, F2R; cbn. lra. Qed.
Lemma two_real : bit32 two 2.
Proof. split; [split; reflexivity || discriminate|]. split; [apply decode_valid|]. split; [reflexivity|]. rewrite (proj1 (proj2 circle_constants)). unfold SF2R, F2R; cbn. lra. Qed.
Lemma fifty_real : bit32 fifty 50.
Proof. split; [split; reflexivity || discriminate|]. split; [apply decode_valid|]. split; [reflexivity|]. rewrite (proj2 (proj2 circle_constants)). unfold SF2R, F2R; cbn. lra. Qed.

Lemma of_nat_real n : Z.of_nat n <= 16777216 -> bit32 (f32_of_nat n) (IZR (Z.of_nat n)).
Proof.
  intros Hn. destruct (exact_lt (Z.of_nat n) 0) as [H1 H2]; [lia|lia|].
  pose proof (norm32 (Z.of_nat n) 0 H2) as M. rewrite H1 in M. replace (IZR (Z.of_nat n) * bpow radix2 0)%R with (IZR (Z.of_nat n)) in M by (cbn; lra).
  unfold f32_of_nat. apply encoded. exact M.
Qed.

(** The grid. *)
Lemma grid_real size i : Z.of_nat size <= 671088 -> (i <= size)%nat ->
  bit32 (grid_coord size i) (IZR (25 * (2 * Z.of_nat i - Z.of_nat size))).
Proof.
  intros Hs Hi. set (a := Z.of_nat i). set (n := Z.of_nat size).
  assert (Hb : 0 <= a <= n /\ n <= 671088) by lia.
  assert (Bm1 : bpow radix2 (-1) = (/ 2)%R) by (cbn; lra).
  (* size / 2 *)
  destruct (exact_lt n (-1)) as [D1 D2]; [lia|lia|].
  assert (D : bit32 (f32_div (f32_of_nat size) two) (IZR n * bpow radix2 (-1))).
  { rewrite <- D1. replace (IZR n * bpow radix2 (-1))%R with (IZR n / 2)%R in * by (rewrite Bm1; lra).
    apply bits_div; [apply of_nat_real; lia|apply two_real|lra|exact D2]. }
  (* i - size / 2 *)
  destruct (exact_lt (2 * a - n) (-1)) as [S1 S2]; [lia|lia|].
  assert (Sb : bit32 (f32_sub (f32_of_nat i) (f32_div (f32_of_nat size) two)) (IZR (2 * a - n) * bpow radix2 (-1))).
  { rewrite <- S1. assert (E : (IZR (2 * a - n) * bpow radix2 (-1))%R = (IZR a - IZR n * bpow radix2 (-1))%R).
    { rewrite minus_IZR, mult_IZR, Bm1. lra. }
    rewrite E in *. apply bits_sub; [apply of_nat_real; lia|exact D|exact S2]. }
  (* times 50 *)
  destruct (exact_lt (25 * (2 * a - n)) 0) as [M1 M2]; [lia|lia|].
  unfold grid_coord.
  assert (E : (IZR (25 * (2 * a - n)) * bpow radix2 0)%R = (IZR (2 * a - n) * bpow radix2 (-1) * 50)%R).
  { rewrite mult_IZR, Bm1. cbn [bpow]. lra. }
  rewrite E in *.
  replace (IZR (25 * (2 * a - n))) with (rnd32 (IZR (2 * a - n) * bpow radix2 (-1) * 50)).
  - apply bits_mul; [exact Sb|apply fifty_real|exact M2].
  - rewrite M1, mult_IZR, Bm1. lra.
Qed.

(** One step. *)
Lemma nudge_real r n : bit32 r (IZR n * bpow radix2 (-24)) -> 0 <= n <= 16777216 ->
  bit32 (f32_mul (f32_sub r half) two) (IZR (2 * n - 16777216) * bpow radix2 (-24)).
Proof.
  intros Hr Hn.
  assert (B24 : bpow radix2 (-24) = (/ 16777216)%R) by (cbn; lra).
  assert (B23 : bpow radix2 (-23) = (/ 8388608)%R) by (cbn; lra).
  destruct (exact_lt (n - 8388608) (-24)) as [S1 S2]; [lia|lia|].
  assert (Sb : bit32 (f32_sub r half) (IZR (n - 8388608) * bpow radix2 (-24))).
  { rewrite <- S1. assert (E : (IZR (n - 8388608) * bpow radix2 (-24))%R = (IZR n * bpow radix2 (-24) - 1 / 2)%R).
    { rewrite minus_IZR, B24. lra. }
    rewrite E in *. apply bits_sub; [exact Hr|apply half_real|exact S2]. }
  destruct (exact_lt (n - 8388608) (-23)) as [M1 M2]; [lia|lia|].
  assert (E : (IZR (n - 8388608) * bpow radix2 (-23))%R = (IZR (n - 8388608) * bpow radix2 (-24) * 2)%R).
  { rewrite B24, B23. lra. }
  rewrite E in *.
  replace (IZR (2 * n - 16777216) * bpow radix2 (-24))%R with (rnd32 (IZR (n - 8388608) * bpow radix2 (-24) * 2)).
  - apply bits_mul; [exact Sb|apply two_real|exact M2].
  - rewrite M1, !minus_IZR, mult_IZR, B24. lra.
Qed.

Lemma rnd_top : rnd32 16777217 = 16777216%R.
Proof.
  assert (F : fmt32 (IZR 16777218)).
  { replace (IZR 16777218) with (IZR 8388609 * bpow radix2 1)%R by (cbn; lra). apply fmt_scaled; lia. }
  assert (H : (Rabs (rnd32 (IZR 16777217 * bpow radix2 0)) < bpow radix2 128)%R).
  { apply small_lt with 16777218; [|reflexivity]. apply rnd_bound; [exact F|]. cbn [bpow]. rewrite Rmult_1_r.
    rewrite Rabs_right by lra. lra. }
  destruct (norm32 16777217 0 H) as [_ [_ E]]. cbn [bpow] in E. rewrite Rmult_1_r in E. rewrite <- E.
  change (SpecFloat.binary_normalize 24 128 16777217 0 false) with
    ltac:(let t := eval vm_compute in (SpecFloat.binary_normalize 24 128 16777217 0 false) in exact t).
  unfold SF2R, F2R. cbn. lra.
Qed.

(** The largest bound a step can be given: one more, but not beyond 2^24. *)
Lemma step_real v r a n B : bit32 v a -> bit32 r (IZR n * bpow radix2 (-24)) ->
  0 <= n < 16777216 -> 0 <= B <= 16777216 -> (Rabs a <= IZR B)%R ->
  bit32 (step_coord v r) (rnd32 (a + IZR (2 * n - 16777216) * bpow radix2 (-24))) /\
  (Rabs (rnd32 (a + IZR (2 * n - 16777216) * bpow radix2 (-24))) <= IZR (Z.min 16777216 (B + 1)))%R.
Proof.
  intros Hv Hr Hn HB Ha. pose proof (nudge_real _ _ Hr ltac:(lia)) as Hnud.
  set (d := (IZR (2 * n - 16777216) * bpow radix2 (-24))%R) in *.
  assert (Hd : (Rabs d <= 1)%R).
  { unfold d. replace (bpow radix2 (-24)) with (/ 16777216)%R by (cbn; lra). apply Rabs_le.
    assert (H1 : -16777216 <= 2 * n - 16777216) by lia. assert (H2 : 2 * n - 16777216 <= 16777216) by lia.
    apply IZR_le in H1, H2. lra. }
  assert (Hs : (Rabs (a + d) <= IZR (B + 1))%R).
  { eapply Rle_trans; [apply Rabs_triang|]. rewrite plus_IZR. lra. }
  assert (Hb : (Rabs (rnd32 (a + d)) <= IZR (Z.min 16777216 (B + 1)))%R).
  { destruct (Z.eq_dec B 16777216) as [->|HBn].
    - replace (Z.min 16777216 (16777216 + 1)) with 16777216 by lia. change (16777216 + 1) with 16777217 in Hs.
      apply Rabs_le. apply Rabs_le_inv in Hs. rewrite <- rnd_top. split.
      + replace (- rnd32 16777217)%R with (rnd32 (- (16777217))) by (unfold rnd32; rewrite round_NE_opp; reflexivity).
        apply rnd_le. lra.
      + apply rnd_le. lra.
    - replace (Z.min 16777216 (B + 1)) with (B + 1) by lia. apply rnd_bound; auto.
      replace (IZR (B + 1)) with (IZR (B + 1) * bpow radix2 0)%R by (cbn; lra). apply fmt_scaled_le; lia. }
  split; auto. unfold step_coord. apply bits_add; auto.
  apply small_lt with (Z.min 16777216 (B + 1)); auto. lia.
Qed.

(** A step never overflows, wherever the circle is. *)
Definition maxf : Z := 16777215 * 2 ^ 104.
Lemma finite_max x v : real32 x v -> (Rabs v <= IZR maxf)%R.
Proof.
  intros [V [F <-]]. destruct x as [s|s| |s m e]; try discriminate.
  - cbn [SF2R]. rewrite Rabs_R0. apply IZR_le. discriminate.
  - apply valid_shape in V.
    assert (E : Rabs (SF2R radix2 (S754_finite s m e)) = (IZR (Zpos m) * bpow radix2 e)%R).
    { unfold SF2R, F2R. cbn [Fnum Fexp]. rewrite Rabs_mult, (Rabs_right (bpow radix2 e)) by (apply Rle_ge, bpow_ge_0).
      f_equal. rewrite <- abs_IZR. destruct s; reflexivity. }
    rewrite E. replace (IZR maxf) with (IZR 16777215 * bpow radix2 104)%R.
    + apply Rmult_le_compat; [apply IZR_le; lia|apply bpow_ge_0|apply IZR_le; lia|apply bpow_le; lia].
    + unfold maxf. rewrite mult_IZR. rewrite <- (IZR_Zpower radix2 104) by lia. reflexivity.
Qed.
Lemma rnd_max : rnd32 (IZR (maxf + 1)) = IZR maxf.
Proof.
  assert (F : fmt32 (IZR (2 ^ 128 - 2 ^ 104))).
  { replace (IZR (2 ^ 128 - 2 ^ 104)) with (IZR 16777215 * bpow radix2 104)%R; [apply fmt_scaled; lia|].
    rewrite <- (IZR_Zpower radix2 104) by lia. rewrite <- mult_IZR. reflexivity. }
  assert (G : fmt32 (IZR maxf)) by exact F.
  apply Rle_antisym.
  2:{ rewrite <- (rnd_exact (IZR maxf)) at 1 by exact G. apply rnd_le. apply IZR_le. lia. }
  apply Rnot_lt_le. intros Hlt.
  (* the nearest is at most one away *)
  pose proof (round_N_pt radix2 (FLT_exp (-149) 24) (fun x => negb (Z.even x)) (IZR (maxf + 1))) as [_ N].
  specialize (N (IZR maxf) G). fold ZnearestE in N. change (round radix2 (FLT_exp (-149) 24) ZnearestE (IZR (maxf + 1))) with (rnd32 (IZR (maxf + 1))) in N.
  rewrite plus_IZR in *. set (w := rnd32 (IZR maxf + 1)) in *.
  assert (Hw : (w <= IZR maxf + 2)%R).
  { replace (IZR maxf - (IZR maxf + 1))%R with (-1)%R in N by lra. rewrite (Rabs_left (-1)) in N by lra. apply Rabs_le_inv in N. lra. }
  (* but the next f32 is much further away *)
  assert (Fw : fmt32 w). { unfold w, rnd32. apply generic_format_round; [apply FLT_exp_valid; reflexivity|apply valid_rnd_N]. }
  assert (Hs : (succ radix2 (FLT_exp (-149) 24) (IZR maxf) <= w)%R).
  { apply succ_le_lt; auto. apply FLT_exp_valid; reflexivity. }
  assert (U : (ulp radix2 (FLT_exp (-149) 24) (IZR maxf) = bpow radix2 104)%R).
  { rewrite ulp_neq_0 by (apply not_0_IZR; discriminate). f_equal. unfold cexp, FLT_exp.
    rewrite (mag_unique radix2 (IZR maxf) 128); [reflexivity|].
    rewrite Rabs_right by (apply Rle_ge, IZR_le; discriminate).
    rewrite <- !(IZR_Zpower radix2) by lia. split; [apply IZR_le|apply IZR_lt]; reflexivity || (apply Z.leb_le; reflexivity). }
  rewrite succ_eq_pos in Hs by (apply IZR_le; discriminate). rewrite U in Hs.
  assert (B : (2 < bpow radix2 104)%R) by (apply (bpow_lt radix2 1 104); lia). lra.
Qed.
Lemma step_finite v r a n : bit32 v a -> bit32 r (IZR n * bpow radix2 (-24)) ->
  0 <= n < 16777216 ->
  bit32 (step_coord v r) (rnd32 (a + IZR (2 * n - 16777216) * bpow radix2 (-24))).
Proof.
  intros Hv Hr Hn. pose proof (nudge_real _ _ Hr ltac:(lia)) as Hnud.
  set (d := (IZR (2 * n - 16777216) * bpow radix2 (-24))%R) in *.
  assert (Hd : (Rabs d <= 1)%R).
  { unfold d. replace (bpow radix2 (-24)) with (/ 16777216)%R by (cbn; lra). apply Rabs_le.
    assert (H1 : -16777216 <= 2 * n - 16777216) by lia. assert (H2 : 2 * n - 16777216 <= 16777216) by lia.
    apply IZR_le in H1, H2. lra. }
  pose proof (finite_max _ _ (proj2 Hv)) as Ha.
  assert (Hs : (Rabs (a + d) <= IZR (maxf + 1))%R).
  { eapply Rle_trans; [apply Rabs_triang|]. rewrite plus_IZR. lra. }
  unfold step_coord. apply bits_add; auto.
  apply small_lt with maxf; [|reflexivity].
  apply Rabs_le. apply Rabs_le_inv in Hs. rewrite <- rnd_max. split.
  - replace (- rnd32 (IZR (maxf + 1)))%R with (rnd32 (- (IZR (maxf + 1)))) by (unfold rnd32; rewrite round_NE_opp; reflexivity).
    apply rnd_le. lra.
  - apply rnd_le. lra.
Qed.

(** A rounded value is a nearest f32. *)
Lemma Q2R_abs q : Q2R (Qabs q) = Rabs (Q2R q).
Proof.
  destruct (Qlt_le_dec q 0) as [H|H].
  - rewrite (Qeq_eqR _ _ (Qabs_neg q (Qlt_le_weak _ _ H))), Q2R_opp.
    apply Qlt_le_weak, Qle_Rle in H. rewrite Rabs_left1; auto. unfold Q2R at 2 in H; cbn in H; lra.
  - rewrite (Qeq_eqR _ _ (Qabs_pos q H)). apply Qle_Rle in H. rewrite Rabs_right; auto. unfold Q2R at 1 in H; cbn in H; lra.
Qed.
Lemma nearest_real b q : bit32 b (rnd32 (Q2R q)) -> f32_nearest b q.
Proof.
  intros H. destruct (real_is _ _ H) as [p [Hp E]]. exists p. split; auto. intros c r Hc.
  apply Rle_Qle. rewrite !Q2R_abs, !Q2R_minus, E.
  apply is_real in Hc. pose proof (fmt_real _ _ (proj2 Hc)) as Fc.
  pose proof (round_N_pt radix2 (FLT_exp (-149) 24) (fun x => negb (Z.even x)) (Q2R q)) as [_ N]. apply (N _ Fc).
Qed.
