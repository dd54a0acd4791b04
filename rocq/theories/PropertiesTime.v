(** C19, C20: time warps and seconds. (C18 is in PropertiesEngine.) *)
From Verif Require Import Time.
Open Scope Z_scope.

Definition in_i32 (z : Z) : Prop := -2147483648 <= z <= 2147483647.

Lemma sat_in z : in_i32 (sat_i32 z).
Proof. unfold in_i32, sat_i32, i32_min, i32_max. lia. Qed.
Lemma sat_id z : in_i32 z -> sat_i32 z = z.
Proof. unfold in_i32, sat_i32, i32_min, i32_max. lia. Qed.
Lemma wrap_in z : in_i32 (wrap_i32 z).
Proof.
  unfold in_i32, wrap_i32. pose proof (Z.mod_pos_bound (z + 2147483648) 4294967296). lia.
Qed.
Lemma wrap_id z : in_i32 z -> wrap_i32 z = z.
Proof. unfold in_i32, wrap_i32. intros H. rewrite Z.mod_small; lia. Qed.
Lemma shift10 z : Z.shiftr z 10 = z / 1024.
Proof. rewrite Z.shiftr_div_pow2 by lia. reflexivity. Qed.

(** ** C19 *)

(** [apply] is the affine map [floor((parent-offset)*scale/1024)] whenever the
    difference and the result fit in an i32. *)
Theorem C19_warp_is_affine_in_range :
  forall offset scale parent,
    in_i32 (parent - offset) ->
    in_i32 ((parent - offset) * scale / 1024) ->
    warp_apply (mkWarp offset scale) parent = (parent - offset) * scale / 1024.
Proof.
  intros o s p H1 H2. unfold warp_apply, ticks_mul, ticks_sub, denominator_as_log2; cbn [tw_offset tw_scale].
  rewrite (sat_id _ H1), shift10. apply wrap_id; auto.
Qed.
Print Assumptions C19_warp_is_affine_in_range.

(** The result is within one tick below the exact rational value:
    [1024*result <= (parent-offset)*scale < 1024*(result+1)]. *)
Theorem C19_warp_rounds_down :
  forall offset scale parent,
    in_i32 (parent - offset) ->
    in_i32 ((parent - offset) * scale / 1024) ->
    let r := warp_apply (mkWarp offset scale) parent in
    1024 * r <= (parent - offset) * scale < 1024 * (r + 1).
Proof.
  intros o s p H1 H2. cbn zeta. rewrite C19_warp_is_affine_in_range by auto.
  pose proof (Z.div_mod ((p - o) * s) 1024). pose proof (Z.mod_pos_bound ((p - o) * s) 1024). lia.
Qed.
Print Assumptions C19_warp_rounds_down.

Theorem C19_default_warp_is_identity :
  forall parent, in_i32 parent -> warp_apply timewarp_default parent = parent.
Proof.
  intros p H. unfold timewarp_default, timescale_default, denominator, denominator_as_log2.
  change (Z.shiftl 1 10) with 1024.
  assert (E : (p - 0) * 1024 / 1024 = p) by (rewrite Z.sub_0_r; apply Z.div_mul; lia).
  rewrite C19_warp_is_affine_in_range; rewrite ?E, ?Z.sub_0_r; auto.
Qed.
Print Assumptions C19_default_warp_is_identity.

(** Monotone for non-negative scales, antitone for negative ones, as long as the
    (saturated) product stays in range. *)
Theorem C19_warp_monotone :
  forall offset scale p1 p2,
    0 <= scale -> p1 <= p2 ->
    in_i32 (Z.max (-2147483648) (Z.min 2147483647 (p1 - offset)) * scale / 1024) ->
    in_i32 (Z.max (-2147483648) (Z.min 2147483647 (p2 - offset)) * scale / 1024) ->
    warp_apply (mkWarp offset scale) p1 <= warp_apply (mkWarp offset scale) p2.
Proof.
  intros o s p1 p2 Hs Hp H1 H2. unfold warp_apply, ticks_mul, ticks_sub, denominator_as_log2; cbn [tw_offset tw_scale].
  rewrite !shift10. fold i32_min i32_max in H1, H2. fold (sat_i32 (p1 - o)) in H1. fold (sat_i32 (p2 - o)) in H2.
  rewrite !wrap_id by auto. apply Z.div_le_mono; [lia|]. apply Z.mul_le_mono_nonneg_r; auto.
  unfold sat_i32, i32_min, i32_max. lia.
Qed.
Print Assumptions C19_warp_monotone.

Theorem C19_warp_antitone :
  forall offset scale p1 p2,
    scale <= 0 -> p1 <= p2 ->
    in_i32 (Z.max (-2147483648) (Z.min 2147483647 (p1 - offset)) * scale / 1024) ->
    in_i32 (Z.max (-2147483648) (Z.min 2147483647 (p2 - offset)) * scale / 1024) ->
    warp_apply (mkWarp offset scale) p2 <= warp_apply (mkWarp offset scale) p1.
Proof.
  intros o s p1 p2 Hs Hp H1 H2. unfold warp_apply, ticks_mul, ticks_sub, denominator_as_log2; cbn [tw_offset tw_scale].
  rewrite !shift10. fold i32_min i32_max in H1, H2. fold (sat_i32 (p1 - o)) in H1. fold (sat_i32 (p2 - o)) in H2.
  rewrite !wrap_id by auto. apply Z.div_le_mono; [lia|]. apply Z.mul_le_mono_nonpos_r; auto.
  unfold sat_i32, i32_min, i32_max. lia.
Qed.
Print Assumptions C19_warp_antitone.

(** With a scale of at most 1x in magnitude the
    result always fits, so for those scales the map is exact for every parent
    time whose difference to the offset fits. *)
Theorem C19_slow_warp_never_wraps :
  forall offset scale parent,
    -1024 < scale <= 1024 -> in_i32 (parent - offset) ->
    warp_apply (mkWarp offset scale) parent = (parent - offset) * scale / 1024.
Proof.
  intros o s p Hs H. apply C19_warp_is_affine_in_range; auto.
  unfold in_i32 in *. set (d := p - o) in *. clearbody d.
  assert (-2147483648 * 1024 <= d * s <= 2147483647 * 1024 + 1023).
  { destruct (Z_le_gt_dec 0 d), (Z_le_gt_dec 0 s); nia. }
  split; [apply Z.div_le_lower_bound; lia|].
  assert (d * s / 1024 < 2147483648); [|lia]. apply Z.div_lt_upper_bound; lia.
Qed.
Print Assumptions C19_slow_warp_never_wraps.

(** The result is always an i32, and the i64 intermediate product never
    overflows. *)
Theorem C19_warp_result_is_i32 :
  forall w parent, in_i32 (warp_apply w parent) /\
    (in_i32 (tw_scale w) ->
     - 2 ^ 63 <= ticks_sub parent (tw_offset w) * tw_scale w < 2 ^ 63).
Proof.
  intros w p. split; [apply wrap_in|]. intros Hs.
  pose proof (sat_in (p - tw_offset w)) as H. unfold ticks_sub. unfold in_i32 in *.
  change (2 ^ 63) with 9223372036854775808. nia.
Qed.
Print Assumptions C19_warp_result_is_i32.

(** Refuted outside the range: the result wraps around, so a doubled speed makes
    time run backwards. *)
Theorem C19_warp_wraps_refuted :
  exists w p1 p2, in_i32 p1 /\ in_i32 p2 /\ tw_offset w = 0 /\ tw_scale w = 2048 /\
    p1 <= p2 /\ warp_apply w p2 < 0 < warp_apply w p1.
Proof.
  exists (mkWarp 0 2048), 1073741823, 1073741824. unfold in_i32. repeat split; try lia; vm_compute; reflexivity.
Qed.
Print Assumptions C19_warp_wraps_refuted.

Example warp_examples :
  warp_apply (mkWarp 2048 2048) 4096 = 4096 /\
  warp_apply (mkWarp 5000 (-512)) 4096 = 452 /\
  warp_apply (mkWarp 0 512) 4096 = 2048 /\
  warp_apply (mkWarp 1 (-512)) 4 = -2 /\
  in_i32 (4096 - 5000) /\ in_i32 ((4096 - 5000) * -512 / 1024).
Proof. unfold in_i32. repeat split; try lia; vm_compute; try reflexivity; discriminate. Qed.

(** ** C20 *)

(** [as_secs] divides by 1024, rounding down. *)
Theorem C20_as_secs_exact_partial :
  forall t, 1024 * as_secs t <= as_millis t < 1024 * (as_secs t + 1).
Proof.
  intros t. unfold as_secs, as_millis. rewrite shift10.
  pose proof (Z.div_mod t 1024). pose proof (Z.mod_pos_bound t 1024). lia.
Qed.
Print Assumptions C20_as_secs_exact_partial.

(** [n] seconds' worth of ticks convert back to [n] only for [-42 <= n <= 0]. *)
Theorem C20_seconds_roundtrip_iff :
  forall n, as_secs (ticks_new (n * ticks_per_second)) = n <-> -42 <= n <= 0.
Proof.
  intros n. unfold as_secs, ticks_new, ticks_per_second. rewrite shift10.
  pose proof (Z.div_mod (n * 1000) 1024). pose proof (Z.mod_pos_bound (n * 1000) 1024). lia.
Qed.
Print Assumptions C20_seconds_roundtrip_iff.

Theorem C20_one_second_is_zero_seconds_refuted :
  as_secs (ticks_new (1 * ticks_per_second)) <> 1.
Proof. vm_compute. discriminate. Qed.
Print Assumptions C20_one_second_is_zero_seconds_refuted.
