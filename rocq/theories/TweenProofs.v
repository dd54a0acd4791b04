(** Rounding bounds for [SpecFloat] at single precision. *)
From Verif Require Import Tween.
Open Scope Z_scope.

(** [m * 2^e] against an integer. *)
Definition le_int (m e n : Z) : Prop := m * 2 ^ Z.max 0 e <= n * 2 ^ Z.max 0 (- e).
Definition ge_int (m e n : Z) : Prop := n * 2 ^ Z.max 0 (- e) <= m * 2 ^ Z.max 0 e.

(** Magnitude of a float against an integer. *)
Definition sf_le (x : spec_float) (n : Z) : Prop :=
  match x with
  | S754_zero _ => 0 <= n
  | S754_finite _ m e => le_int (Zpos m) e n
  | _ => False
  end.
Definition sf_ge (x : spec_float) (n : Z) : Prop :=
  match x with
  | S754_zero _ => n <= 0
  | S754_finite _ m e => ge_int (Zpos m) e n
  | S754_infinity _ => True
  | S754_nan => False
  end.
Definition sf_sign (x : spec_float) : option bool :=
  match x with S754_zero s | S754_finite s _ _ | S754_infinity s => Some s | S754_nan => None end.

Lemma iter_pos_iter {A} (f : A -> A) n x : iter_pos f n x = Pos.iter f x n.
Proof.
  revert x. induction n; intros x; cbn; rewrite ?IHn, ?Pos.iter_swap; auto.
Qed.

Lemma pow2_pos k : 0 <= k -> 0 < 2 ^ k.
Proof. intros. apply Z.pow_pos_nonneg; lia. Qed.

Definition exact (mrs : shr_record) : Prop := shr_r mrs = false /\ shr_s mrs = false.

Lemma shr_1_spec m k mrs :
  0 <= m -> 0 <= k -> shr_m mrs = m / 2 ^ k -> (m mod 2 ^ k = 0 <-> exact mrs) ->
  shr_m (shr_1 mrs) = m / 2 ^ (k + 1) /\ (m mod 2 ^ (k + 1) = 0 <-> exact (shr_1 mrs)).
Proof.
  intros Hm Hk Em Ex. destruct mrs as [q r s]. cbn in Em. unfold exact in *. cbn in Ex.
  pose proof (pow2_pos k Hk) as Hp. assert (Hq : 0 <= q) by (subst q; apply Z.div_pos; lia).
  rewrite Z.pow_add_r, Z.pow_1_r by lia.
  assert (Ed : m / (2 ^ k * 2) = q / 2) by (rewrite <- Z.div_div by lia; congruence).
  assert (Er : m mod (2 ^ k * 2) = m mod 2 ^ k + 2 ^ k * (q mod 2)) by (rewrite Z.rem_mul_r by lia; congruence).
  pose proof (Z.mod_pos_bound m (2 ^ k) Hp) as Hb. rewrite Ed, Er.
  destruct q as [|[p|p|]|p]; [..|lia].
  - cbn [shr_1 shr_m shr_r shr_s]. rewrite Z.mod_0_l, Z.mul_0_r, Z.add_0_r by lia. split; [reflexivity|].
    rewrite Ex. destruct r, s; cbn; intuition congruence.
  - cbn [shr_1 shr_m shr_r shr_s]. replace (Zpos p~1) with (1 + Zpos p * 2) by lia. rewrite Z.mod_add, Z.div_add by lia. cbn [Z.div Z.modulo].
    change (1 mod 2) with 1. change (1 / 2) with 0. split; [reflexivity|]. split; [lia|intros [? ?]; congruence].
  - cbn [shr_1 shr_m shr_r shr_s]. replace (Zpos p~0) with (0 + Zpos p * 2) by lia. rewrite Z.mod_add, Z.div_add by lia.
    change (0 mod 2) with 0. change (0 / 2) with 0. rewrite Z.mul_0_r, Z.add_0_r. split; [reflexivity|].
    rewrite Ex. destruct r, s; cbn; intuition congruence.
  - cbn [shr_1 shr_m shr_r shr_s]. change (1 mod 2) with 1. change (1 / 2) with 0. split; [reflexivity|]. split; [lia|intros [? ?]; congruence].
Qed.

Lemma shr_iter_spec m p :
  0 <= m ->
  let mrs := iter_pos shr_1 p {| shr_m := m; shr_r := false; shr_s := false |} in
  shr_m mrs = m / 2 ^ Zpos p /\ (m mod 2 ^ Zpos p = 0 <-> exact mrs).
Proof.
  intros Hm. cbn zeta. rewrite iter_pos_iter.
  induction p as [|p IH] using Pos.peano_ind.
  - cbn [Pos.iter]. change (Z.pos 1) with (0 + 1). apply shr_1_spec; try lia.
    + cbn. rewrite Z.div_1_r. reflexivity.
    + cbn. rewrite Z.mod_1_r. unfold exact; cbn; tauto.
  - rewrite Pos.iter_succ. rewrite Pos2Z.inj_succ. unfold Z.succ. destruct IH as [I1 I2]. apply shr_1_spec; try lia; auto.
Qed.

Lemma digits_bounds p : 2 ^ (Zpos (digits2_pos p) - 1) <= Zpos p < 2 ^ Zpos (digits2_pos p).
Proof.
  induction p as [p IH|p IH|]; cbn [digits2_pos].
  - rewrite Pos2Z.inj_succ. replace (Z.succ (Z.pos (digits2_pos p)) - 1) with (Z.succ (Z.pos (digits2_pos p) - 1)) by lia.
    rewrite !Z.pow_succ_r by lia. lia.
  - rewrite Pos2Z.inj_succ. replace (Z.succ (Z.pos (digits2_pos p)) - 1) with (Z.succ (Z.pos (digits2_pos p) - 1)) by lia.
    rewrite !Z.pow_succ_r by lia. lia.
  - cbn. lia.
Qed.
Lemma digits_le p n : 0 <= n -> Zpos p < 2 ^ n -> Zpos (digits2_pos p) <= n.
Proof.
  intros Hn H. pose proof (digits_bounds p). apply Z.nlt_ge. intros Hlt.
  assert (2 ^ n <= 2 ^ (Z.pos (digits2_pos p) - 1)) by (apply Z.pow_le_mono_r; lia). lia.
Qed.

(** The first rounding step in one formula: a shift by [k], then [q] or [q+1]. *)
Lemma round_step m e :
  exists q' e',
    let '(mrs, e1) := shr_fexp 24 128 (Zpos m) e loc_Exact in
    round_nearest_even (shr_m mrs) (loc_of_shr_record mrs) = q' /\ e1 = e' /\
    -149 <= e' /\ 0 <= q' <= 2 ^ 24 /\
    ((e' = e /\ q' = Zpos m) \/
     exists k, 0 < k /\ e' = e + k /\ (e' = -149 \/ (e' = Zpos (digits2_pos m) + e - 24 /\ -149 <= e')) /\
       (Zpos m mod 2 ^ k = 0 /\ q' = Zpos m / 2 ^ k \/
        Zpos m mod 2 ^ k <> 0 /\ (q' = Zpos m / 2 ^ k \/ q' = Zpos m / 2 ^ k + 1))).
Proof.
  unfold shr_fexp. cbn [shr_record_of_loc Zdigits2]. unfold fexp, emin.
  set (d := Zpos (digits2_pos m)). pose proof (digits_bounds m) as Hd. fold d in Hd. assert (Hd1 : 1 <= d) by (unfold d; lia).
  destruct (Z.max (d + e - 24) (3 - 128 - 24) - e) as [|k|k] eqn:Ek; cbn [shr].
  - exists (Zpos m), e. cbn. split; [reflexivity|]. split; [reflexivity|]. split; [lia|]. split; [|left; auto].
    assert (2 ^ d <= 2 ^ 24) by (apply Z.pow_le_mono_r; lia). lia.
  - destruct (shr_iter_spec (Zpos m) k ltac:(lia)) as [H1 H2].
    set (mrs := iter_pos shr_1 k _) in *. exists (round_nearest_even (shr_m mrs) (loc_of_shr_record mrs)), (e + Zpos k).
    split; [reflexivity|]. split; [reflexivity|]. split; [lia|].
    assert (Hq : 0 <= Zpos m / 2 ^ Zpos k < 2 ^ 24).
    { split; [apply Z.div_pos; [lia|apply pow2_pos; lia]|]. apply Z.div_lt_upper_bound; [apply pow2_pos; lia|].
      rewrite <- Z.pow_add_r by lia. assert (2 ^ d <= 2 ^ (Zpos k + 24)) by (apply Z.pow_le_mono_r; lia). lia. }
    assert (Hc : (Zpos m mod 2 ^ Zpos k = 0 /\ round_nearest_even (shr_m mrs) (loc_of_shr_record mrs) = Zpos m / 2 ^ Zpos k) \/
                 (Zpos m mod 2 ^ Zpos k <> 0 /\ (round_nearest_even (shr_m mrs) (loc_of_shr_record mrs) = Zpos m / 2 ^ Zpos k \/
                    round_nearest_even (shr_m mrs) (loc_of_shr_record mrs) = Zpos m / 2 ^ Zpos k + 1))).
    { rewrite <- H1. clearbody mrs. clear - H2. destruct mrs as [q r s]. unfold exact in H2. cbn [shr_m shr_r shr_s] in *.
      destruct r, s; cbn [loc_of_shr_record round_nearest_even]; [right|right|right|left];
        (split; [rewrite H2; intuition congruence|]); try destruct (Z.even q); auto. }
    split; [destruct Hc as [[_ ->]|[_ [->| ->]]]; lia|]. right. exists (Zpos k). split; [lia|]. split; [reflexivity|]. split; [fold d; lia|].
    exact Hc.
  - exists (Zpos m), e. cbn. split; [reflexivity|]. split; [reflexivity|]. split; [lia|]. split; [|left; auto].
    assert (2 ^ d <= 2 ^ 24) by (apply Z.pow_le_mono_r; lia). lia.
Qed.

Lemma norm_step q e :
  0 <= q <= 2 ^ 24 -> -149 <= e ->
  let '(mrs, e2) := shr_fexp 24 128 q e loc_Exact in
  e <= e2 /\ 0 <= shr_m mrs /\ shr_m mrs * 2 ^ (e2 - e) = q.
Proof.
  intros Hq He. unfold shr_fexp. cbn [shr_record_of_loc]. unfold fexp, emin.
  assert (Hcase : (Zdigits2 q <= 24) \/ q = 2 ^ 24).
  { destruct (Z.eq_dec q (2 ^ 24)) as [->|Hne]; [auto|left]. destruct q as [|p|p]; [cbn; lia| |lia].
    apply (digits_le p 24); lia. }
  destruct Hcase as [Hd| ->].
  - destruct (Z.max (Zdigits2 q + e - 24) (3 - 128 - 24) - e) as [|k|k] eqn:Ek; [| lia |];
      cbn [shr shr_m]; rewrite Z.sub_diag, Z.pow_0_r; lia.
  - change (Zdigits2 (2 ^ 24)) with 25. replace (Z.max (25 + e - 24) (3 - 128 - 24) - e) with 1 by lia.
    cbn [shr]. change (iter_pos shr_1 1 _) with {| shr_m := 2 ^ 23; shr_r := false; shr_s := false |}. cbn [shr_m].
    replace (e + 1 - e) with 1 by lia. split; [lia|]. split; [lia|reflexivity].
Qed.

Lemma le_int_scale c m e n : 0 <= c -> 0 <= e + c -> (le_int m e n <-> m * 2 ^ (e + c) <= n * 2 ^ c).
Proof.
  intros Hc He. unfold le_int. set (d := c - Z.max 0 (- e)). assert (Hd : 0 <= d) by lia.
  replace (e + c) with (Z.max 0 e + d) by lia. replace c with (Z.max 0 (- e) + d) at 1 by lia.
  rewrite !Z.pow_add_r, !Z.mul_assoc by lia. pose proof (pow2_pos d Hd). nia.
Qed.
Lemma ge_int_scale c m e n : 0 <= c -> 0 <= e + c -> (ge_int m e n <-> n * 2 ^ c <= m * 2 ^ (e + c)).
Proof.
  intros Hc He. unfold ge_int. set (d := c - Z.max 0 (- e)). assert (Hd : 0 <= d) by lia.
  replace (e + c) with (Z.max 0 e + d) by lia. replace c with (Z.max 0 (- e) + d) at 1 by lia.
  rewrite !Z.pow_add_r, !Z.mul_assoc by lia. pose proof (pow2_pos d Hd). nia.
Qed.
Lemma le_int_shift m e k n : 0 <= k -> (le_int m (e + k) n <-> le_int (m * 2 ^ k) e n).
Proof.
  intros Hk. set (c := Z.max 0 (- e)). rewrite (le_int_scale c), (le_int_scale c) by lia.
  replace (e + k + c) with (k + (e + c)) by lia. rewrite Z.pow_add_r, Z.mul_assoc by lia. tauto.
Qed.
Lemma ge_int_shift m e k n : 0 <= k -> (ge_int m (e + k) n <-> ge_int (m * 2 ^ k) e n).
Proof.
  intros Hk. set (c := Z.max 0 (- e)). rewrite (ge_int_scale c), (ge_int_scale c) by lia.
  replace (e + k + c) with (k + (e + c)) by lia. rewrite Z.pow_add_r, Z.mul_assoc by lia. tauto.
Qed.

(** Rounding never crosses an integer up to 2^24. *)
Lemma round_bounds s m e n :
  0 <= n <= 2 ^ 24 ->
  let r := binary_round_aux 24 128 s (Zpos m) e loc_Exact in
  (le_int (Zpos m) e n -> sf_le r n) /\ (ge_int (Zpos m) e n -> sf_ge r n) /\ sf_sign r = Some s.
Proof.
  intros Hn. cbn zeta. unfold binary_round_aux. destruct (round_step m e) as [q [e' H]].
  destruct (shr_fexp 24 128 (Zpos m) e loc_Exact) as [mrs e1]. destruct H as [Eq [Ee [He' [Hq Hk]]]]. rewrite Eq, Ee. clear mrs e1 Eq Ee.
  assert (B : (le_int (Zpos m) e n -> le_int q e' n) /\ (ge_int (Zpos m) e n -> ge_int q e' n)).
  { destruct Hk as [[-> ->]|[k [Hk [Ek [Hf Hr]]]]]; [tauto|].
    pose proof (pow2_pos k ltac:(lia)) as Hp. pose proof (Z.div_mod (Zpos m) (2 ^ k) ltac:(lia)) as Hdm.
    pose proof (Z.mod_pos_bound (Zpos m) (2 ^ k) Hp) as Hmb. set (r := Zpos m mod 2 ^ k) in *. set (q0 := Zpos m / 2 ^ k) in *.
    destruct (Z.le_gt_cases e' 0) as [Hneg|Hpos].
    - set (N := n * 2 ^ (- e')).
      assert (Em : e' - k = e) by lia.
      rewrite (le_int_scale (- e)), (ge_int_scale (- e)), (le_int_scale (- e')), (ge_int_scale (- e')) by lia.
      rewrite !Z.add_opp_diag_r, !Z.pow_0_r, !Z.mul_1_r. fold N.
      replace (n * 2 ^ (- e)) with (N * 2 ^ k) by (unfold N; rewrite <- Z.mul_assoc, <- Z.pow_add_r by lia; f_equal; f_equal; lia).
      split; intros HH; nia.
    - assert (Hd : e' = Zpos (digits2_pos m) + e - 24) by lia. pose proof (digits_bounds m) as Hb.
      assert (Hq0 : 2 ^ 23 <= q0).
      { unfold q0. apply Z.div_le_lower_bound; [lia|]. rewrite <- Z.pow_add_r by lia.
        replace (k + 23) with (Zpos (digits2_pos m) - 1) by lia. lia. }
      assert (H2 : 2 <= 2 ^ e') by (change 2 with (2 ^ 1) at 1; apply Z.pow_le_mono_r; lia).
      set (c := Z.max 0 (- e)).
      rewrite (le_int_scale c (Zpos m)) by lia. rewrite (ge_int_scale c (Zpos m)) by lia.
      rewrite (le_int_scale 0), (ge_int_scale 0) by lia. rewrite Z.add_0_r, !Z.pow_0_r, !Z.mul_1_r.
      assert (Hge : n <= q0 * 2 ^ e') by nia.
      split.
      + intros HH. assert (Hx : Zpos m * 2 ^ (e + c) = (q0 * 2 ^ k + r) * 2 ^ (e + c)) by (f_equal; lia).
        assert (E2 : q0 * 2 ^ k * 2 ^ (e + c) = q0 * 2 ^ e' * 2 ^ c).
        { rewrite <- !Z.mul_assoc, <- !Z.pow_add_r by lia. f_equal. f_equal. lia. }
        pose proof (pow2_pos c ltac:(lia)) as Hc. pose proof (pow2_pos (e + c) ltac:(lia)) as Hec.
        assert (Hr0 : r = 0) by nia. destruct Hr as [[_ ->]|[Hr _]]; [|congruence]. fold q0. nia.
      + intros _. destruct Hr as [[_ ->]|[_ [->| ->]]]; fold q0; nia. }
  pose proof (norm_step q e' Hq He') as Hs. destruct (shr_fexp 24 128 q e' loc_Exact) as [mrs e2]. destruct Hs as [Hle [Hm0 Hmq]].
  assert (B2 : (le_int (Zpos m) e n -> le_int (shr_m mrs) e2 n) /\ (ge_int (Zpos m) e n -> ge_int (shr_m mrs) e2 n)).
  { replace e2 with (e' + (e2 - e')) by lia. rewrite le_int_shift, ge_int_shift, Hmq by lia. exact B. }
  destruct (shr_m mrs) as [|p|p] eqn:Ep; [| |lia].
  - cbn [sf_le sf_ge sf_sign]. split; [lia|]. split; [|reflexivity]. intros HH. destruct B2 as [_ B2]. specialize (B2 HH).
    unfold ge_int in B2. pose proof (pow2_pos (Z.max 0 (- e2)) ltac:(lia)). nia.
  - destruct (Zle_bool e2 (128 - 24)) eqn:Eb.
    + cbn [sf_le sf_ge sf_sign]. tauto.
    + cbn [sf_le sf_ge sf_sign]. split; [|tauto]. intros HH. destruct B2 as [B2 _]. specialize (B2 HH).
      assert (He2 : 104 < e2) by (change (Zle_bool e2 (128 - 24)) with (e2 <=? 104) in Eb; apply Z.leb_gt in Eb; exact Eb).
      unfold le_int in B2. replace (Z.max 0 (- e2)) with 0 in B2 by lia. replace (Z.max 0 e2) with e2 in B2 by lia.
      assert (2 ^ 104 <= 2 ^ e2) by (apply Z.pow_le_mono_r; lia). assert (2 ^ 24 < 2 ^ 104) by (apply Z.pow_lt_mono_r; lia). nia.
Qed.

Lemma round_sign s m e : sf_sign (binary_round_aux 24 128 s (Zpos m) e loc_Exact) = Some s.
Proof. apply (round_bounds s m e 0). lia. Qed.

Lemma shift_pos_mul d m : Zpos (shift_pos d m) = Zpos m * 2 ^ Zpos d.
Proof. rewrite shift_pos_correct, Z.mul_comm. reflexivity. Qed.

Lemma binary_round_bounds s m n :
  0 <= n <= 2 ^ 24 ->
  let r := binary_round 24 128 s m 0 in
  (Zpos m <= n -> sf_le r n) /\ (n <= Zpos m -> sf_ge r n) /\ sf_sign r = Some s.
Proof.
  intros Hn. cbn zeta. unfold binary_round, shl_align.
  assert (L : le_int (Zpos m) 0 n <-> Zpos m <= n) by (rewrite (le_int_scale 0) by lia; cbn; lia).
  assert (G : ge_int (Zpos m) 0 n <-> n <= Zpos m) by (rewrite (ge_int_scale 0) by lia; cbn; lia).
  destruct (fexp 24 128 (Zpos (digits2_pos m) + 0) - 0) as [|d|d] eqn:Ed.
  - rewrite <- L, <- G. apply round_bounds; auto.
  - rewrite <- L, <- G. apply round_bounds; auto.
  - rewrite Z.sub_0_r in Ed. rewrite Ed. rewrite <- L, <- G.
    destruct (round_bounds s (shift_pos d m) (Zneg d) n Hn) as [A [B C]].
    rewrite shift_pos_mul in A, B. rewrite <- le_int_shift in A by lia. rewrite <- ge_int_shift in B by lia.
    assert (E0 : Z.neg d + Z.pos d = 0) by lia. rewrite E0 in A, B. rewrite <- shift_pos_mul in A, B. auto.
Qed.

(** An integer from 1 to 2^24 is converted exactly. *)
Lemma int_as_f32_exact z : 0 < z <= 2 ^ 24 ->
  exists m e, int_as_f32 z = S754_finite false m e /\ forall n, (le_int (Zpos m) e n <-> z <= n) /\ (ge_int (Zpos m) e n <-> n <= z).
Proof.
  intros Hz. unfold int_as_f32. destruct z as [|p|p]; [lia| |lia]. cbn [binary_normalize].
  destruct (binary_round_bounds false p (Zpos p) ltac:(lia)) as [A [B C]]. specialize (A ltac:(lia)). specialize (B ltac:(lia)).
  destruct (binary_round 24 128 false p 0) as [s|s| |s m e]; cbn in A, B, C; try lia; try contradiction.
  injection C as ->. exists m, e. split; [reflexivity|]. intros n. unfold le_int, ge_int in *.
  pose proof (pow2_pos (Z.max 0 (- e)) ltac:(lia)). nia.
Qed.
Lemma int_as_f32_neg z : z < 0 -> sf_sign (int_as_f32 z) = Some true.
Proof.
  intros Hz. destruct z as [|p|p]; try lia. unfold int_as_f32. cbn [binary_normalize].
  apply (binary_round_bounds true p 0). lia.
Qed.

Lemma as_u32_le r n : 0 <= n -> sf_le r n -> f32_as_u32 r <= n.
Proof.
  intros Hn H. destruct r as [s|s| |s m e]; cbn [sf_le f32_as_u32] in *; try lia; try contradiction.
  destruct s; [lia|]. unfold le_int in H. unfold u32_max. destruct (Z.leb_spec 0 e).
  - replace (Z.max 0 e) with e in H by lia. replace (Z.max 0 (- e)) with 0 in H by lia. rewrite Z.pow_0_r in H. lia.
  - replace (Z.max 0 e) with 0 in H by lia. replace (Z.max 0 (- e)) with (- e) in H by lia. rewrite Z.pow_0_r in H.
    assert (Z.pos m / 2 ^ (- e) <= n); [|lia]. apply Z.div_le_upper_bound; [apply pow2_pos; lia|lia].
Qed.
Lemma as_u32_ge r n : n <= u32_max -> sf_sign r = Some false -> sf_ge r n -> n <= f32_as_u32 r.
Proof.
  intros Hn Hs H. destruct r as [s|s| |s m e]; cbn in Hs; try discriminate; injection Hs as ->; cbn [sf_ge f32_as_u32] in *; try lia.
  unfold ge_int in H. destruct (Z.leb_spec 0 e).
  - replace (Z.max 0 e) with e in H by lia. replace (Z.max 0 (- e)) with 0 in H by lia. rewrite Z.pow_0_r in H. lia.
  - replace (Z.max 0 e) with 0 in H by lia. replace (Z.max 0 (- e)) with (- e) in H by lia. rewrite Z.pow_0_r in H.
    assert (n <= Z.pos m / 2 ^ (- e)); [|lia]. apply Z.div_le_lower_bound; [apply pow2_pos; lia|lia].
Qed.
Lemma as_u32_range r : 0 <= f32_as_u32 r <= u32_max.
Proof.
  destruct r as [s|s| |s m e]; cbn [f32_as_u32]; unfold u32_max; try (destruct s; lia); try lia. destruct s; try lia.
  destruct (Z.leb_spec 0 e).
  - pose proof (pow2_pos e ltac:(lia)). lia.
  - assert (0 <= Z.pos m / 2 ^ (- e)); [|lia]. apply Z.div_pos; [lia|apply pow2_pos; lia].
Qed.
Lemma as_u32_neg r : sf_sign r = Some true \/ sf_sign r = None -> f32_as_u32 r = 0.
Proof. destruct r as [[]|[]| |[] ? ?]; cbn; intros [|]; congruence. Qed.

(** The product with an exactly converted integer. *)
Lemma mul_bounds mt et D n :
  0 < D <= 2 ^ 24 -> 0 <= n <= 2 ^ 24 ->
  let r := SFmul 24 128 (S754_finite false mt et) (int_as_f32 D) in
  (le_int (Zpos mt * D) et n -> f32_as_u32 r <= n) /\ (ge_int (Zpos mt * D) et n -> n <= f32_as_u32 r).
Proof.
  intros HD Hn. cbn zeta. destruct (int_as_f32_exact D HD) as [md [ed [E H]]]. rewrite E. cbn [SFmul xorb].
  assert (EV : Zpos md * 2 ^ Z.max 0 ed = D * 2 ^ Z.max 0 (- ed)).
  { destruct (H D) as [H1 H2]. unfold le_int, ge_int in *. lia. }
  assert (LE : le_int (Zpos mt * D) et n <-> le_int (Zpos (mt * md)) (et + ed) n).
  { set (c := Z.max 0 (- et) + Z.max 0 (- ed)). rewrite (le_int_scale c), (le_int_scale c) by lia. rewrite Pos2Z.inj_mul.
    replace (et + ed + c) with ((et + Z.max 0 (- et)) + Z.max 0 ed) by lia.
    replace (et + c) with ((et + Z.max 0 (- et)) + Z.max 0 (- ed)) by lia. rewrite (Z.pow_add_r 2 (et + Z.max 0 (- et)) (Z.max 0 ed)), (Z.pow_add_r 2 (et + Z.max 0 (- et)) (Z.max 0 (- ed))) by lia.
    set (w := 2 ^ (et + Z.max 0 (- et))).
    replace (Zpos mt * Zpos md * (w * 2 ^ Z.max 0 ed)) with (Zpos mt * w * (Zpos md * 2 ^ Z.max 0 ed)) by ring.
    replace (Zpos mt * D * (w * 2 ^ Z.max 0 (- ed))) with (Zpos mt * w * (D * 2 ^ Z.max 0 (- ed))) by ring. rewrite EV. tauto. }
  assert (GE : ge_int (Zpos mt * D) et n <-> ge_int (Zpos (mt * md)) (et + ed) n).
  { set (c := Z.max 0 (- et) + Z.max 0 (- ed)). rewrite (ge_int_scale c), (ge_int_scale c) by lia. rewrite Pos2Z.inj_mul.
    replace (et + ed + c) with ((et + Z.max 0 (- et)) + Z.max 0 ed) by lia.
    replace (et + c) with ((et + Z.max 0 (- et)) + Z.max 0 (- ed)) by lia. rewrite (Z.pow_add_r 2 (et + Z.max 0 (- et)) (Z.max 0 ed)), (Z.pow_add_r 2 (et + Z.max 0 (- et)) (Z.max 0 (- ed))) by lia.
    set (w := 2 ^ (et + Z.max 0 (- et))).
    replace (Zpos mt * Zpos md * (w * 2 ^ Z.max 0 ed)) with (Zpos mt * w * (Zpos md * 2 ^ Z.max 0 ed)) by ring.
    replace (Zpos mt * D * (w * 2 ^ Z.max 0 (- ed))) with (Zpos mt * w * (D * 2 ^ Z.max 0 (- ed))) by ring. rewrite EV. tauto. }
  rewrite LE, GE. destruct (round_bounds false (mt * md) (et + ed) n Hn) as [A [B C]]. split.
  - intros HH. apply as_u32_le; [lia|auto].
  - intros HH. apply as_u32_ge; auto. unfold u32_max. lia.
Qed.

Lemma mul_neg t D : D < 0 -> sf_sign t = Some false -> f32_as_u32 (SFmul 24 128 t (int_as_f32 D)) = 0.
Proof.
  intros HD Ht. pose proof (int_as_f32_neg D HD) as Hs. apply as_u32_neg.
  destruct t as [s|s| |s m e]; cbn in Ht; try discriminate; injection Ht as ->;
    destruct (int_as_f32 D) as [s2|s2| |s2 m2 e2]; cbn in Hs; try discriminate; injection Hs as ->; cbn [SFmul sf_sign xorb]; auto.
  left. apply round_sign.
Qed.
