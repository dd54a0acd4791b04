(** C42: the floating-point views of times and scales.

    [value_is x n k]: the float [x] is exactly [n / 2^k].  [short p r]: the integer
    [r] has at most [p] significant bits.  [nearest p n r]: [r] is the [p]-bit integer
    nearest to [n], the even one of two (TimeFloatSpec.v). *)
From Verif Require Import TimeFloat TimeFloatSpec TimeFloatProofs PropertiesTime.
Open Scope Z_scope.

Definition i32 (z : Z) : Prop := i32_min <= z <= i32_max.

Lemma f32_conv n : i32 n -> full 24 (as_secs_f32 n) /\ value_is (as_secs_f32 n) (sround 24 n) 10.
Proof.
  intros H. unfold as_secs_f32, as_f32. apply (convert 24 128 _ 8388608); try reflexivity; try lia.
  unfold i32, i32_min, i32_max in H. change (2 ^ (24 + 16)) with 1099511627776. lia.
Qed.
Lemma f64_conv n : i32 n -> full 53 (scale_as_f64 n) /\ value_is (scale_as_f64 n) n 10.
Proof.
  intros H. unfold i32, i32_min, i32_max in H.
  assert (S : sround 53 n = n).
  { unfold sround, rounded. change (2 ^ 53) with 9007199254740992. destruct (Z.ltb_spec n 0).
    - destruct (Z.ltb_spec (- n) 9007199254740992); lia.
    - destruct (Z.ltb_spec n 9007199254740992); lia. }
  rewrite <- S at 3. unfold scale_as_f64, as_f64. apply (convert 53 1024 _ 4503599627370496); try reflexivity; try lia.
Qed.
Lemma nearest_unique_value p n r : nearest p n r -> short p n -> r = n.
Proof. intros [_ N] S. destruct (N n S) as [A _]. lia. Qed.
Lemma nearest_mono p n1 n2 r1 r2 : nearest p n1 r1 -> nearest p n2 r2 -> n1 < n2 -> r1 <= r2.
Proof.
  intros [S1 N1] [S2 N2] L. apply Z.nlt_ge. intros C. destruct (N1 r2 S2) as [A _]. destruct (N2 r1 S1) as [B _]. lia.
Qed.
Lemma value_fun x a b k : value_is x a k -> value_is x b k -> a = b.
Proof.
  destruct x as [s|s| |s m e]; cbn; try tauto; try congruence. intros A B. rewrite A in B.
  pose proof (TweenProofs.pow2_pos (Z.max 0 (- (e + k))) ltac:(lia)). apply Z.mul_reg_r in B; lia.
Qed.

(** [TimeScale::as_f64] is exact for every scale, and comparing the floats compares
    the scales: no two scales are confused. *)
Theorem C42_scale_as_f64_exact : forall s, i32 s -> value_is (scale_as_f64 s) s 10.
Proof. intros s H. apply f64_conv; auto. Qed.
Print Assumptions C42_scale_as_f64_exact.
Theorem C42_scale_as_f64_order : forall a b, i32 a -> i32 b ->
  SFcompare (scale_as_f64 a) (scale_as_f64 b) = Some (a ?= b).
Proof. intros a b A B. eapply full_compare; [apply (f64_conv a A)|apply (f64_conv b B)|apply f64_conv; auto|apply f64_conv; auto]. Qed.
Print Assumptions C42_scale_as_f64_order.

(** [Ticks::as_secs_f32] and [TimeScale::as_f32] are [n / 1024] rounded once, to the
    nearest f32, ties to even: never NaN or infinite, no double rounding. *)
Theorem C42_f32_correctly_rounded : forall n, i32 n ->
  exists r, nearest 24 n r /\ value_is (as_secs_f32 n) r 10 /\ value_is (scale_as_f32 n) r 10.
Proof.
  intros n H. exists (sround 24 n). split; [apply sround_nearest; lia|]. split; apply (f32_conv n H).
Qed.
Print Assumptions C42_f32_correctly_rounded.

(** So they keep the order (weakly): a later time never has a smaller number of
    seconds, and comparison never fails. *)
Theorem C42_f32_monotone : forall a b, i32 a -> i32 b -> a <= b ->
  SFleb (as_secs_f32 a) (as_secs_f32 b) = true /\ SFleb (scale_as_f32 a) (scale_as_f32 b) = true.
Proof.
  intros a b A B L.
  assert (M : SFleb (as_secs_f32 a) (as_secs_f32 b) = true).
  { unfold SFleb. destruct (f32_conv a A) as [F1 V1]. destruct (f32_conv b B) as [F2 V2].
    rewrite (full_compare 24 _ _ _ _ 10 F1 F2 V1 V2).
    assert (R : sround 24 a <= sround 24 b).
    { destruct (Z.eq_dec a b) as [->|Ne]; [lia|]. eapply (nearest_mono 24 a b); try apply sround_nearest; lia. }
    destruct (Z.compare_spec (sround 24 a) (sround 24 b)); auto. lia. }
  split; exact M.
Qed.
Print Assumptions C42_f32_monotone.

(** They are exact exactly for numbers of at most 24 significant bits; in
    particular for every time within 2^24 ticks (over four and a half hours). *)
Theorem C42_f32_exact_iff : forall n, i32 n -> (value_is (as_secs_f32 n) n 10 <-> short 24 n).
Proof.
  intros n H. destruct (f32_conv n H) as [_ V]. pose proof (sround_nearest 24 n ltac:(lia)) as N. split.
  - intros E. rewrite (value_fun _ _ _ _ E V). apply N.
  - intros S. rewrite (nearest_unique_value _ _ _ N S) in V. exact V.
Qed.
Print Assumptions C42_f32_exact_iff.
Theorem C42_f32_exact_range : forall n, Z.abs n <= 2 ^ 24 -> value_is (as_secs_f32 n) n 10.
Proof.
  intros n H. change (2 ^ 24) with 16777216 in H. apply C42_f32_exact_iff; [unfold i32, i32_min, i32_max; lia|].
  destruct (Z.eq_dec (Z.abs n) 16777216) as [E|E].
  - exists (n / 16777216), 24. split; [lia|]. change (2 ^ 24) with 16777216.
    assert (n = 16777216 \/ n = -16777216) as [-> | ->] by lia; split; cbn; lia.
  - exists n, 0. split; [lia|]. split; [change (2 ^ 24) with 16777216; lia|]. rewrite Z.pow_0_r. lia.
Qed.
Print Assumptions C42_f32_exact_range.

(** The error is never more than 64 ticks (a sixteenth of a "second" of 1024), and
    that bound is reached. *)
Theorem C42_f32_error : forall n, i32 n ->
  exists r, value_is (as_secs_f32 n) r 10 /\ Z.abs (n - r) <= 64.
Proof.
  intros n H. destruct (f32_conv n H) as [_ V]. exists (sround 24 n). split; [exact V|].
  destruct (sround_nearest 24 n ltac:(lia)) as [_ N]. unfold i32, i32_min, i32_max in H.
  assert (Z.abs (n - ((n + 64) / 128) * 128) <= 64) as E.
  { pose proof (Z.div_mod (n + 64) 128). pose proof (Z.mod_pos_bound (n + 64) 128). lia. }
  assert (S : short 24 (((n + 64) / 128) * 128)).
  { assert (-16777216 <= (n + 64) / 128 <= 16777216) as B by (pose proof (Z.div_mod (n + 64) 128); pose proof (Z.mod_pos_bound (n + 64) 128); lia).
    set (q := (n + 64) / 128) in *. clearbody q. destruct (Z.eq_dec (Z.abs q) 16777216) as [A|A].
    - exists (q / 16777216), 31. split; [lia|]. change (2 ^ 24) with 16777216. change (2 ^ 31) with 2147483648.
      assert (q = 16777216 \/ q = -16777216) as [-> | ->] by lia; split; cbn; lia.
    - exists q, 7. split; [lia|]. split; [change (2 ^ 24) with 16777216; lia|]. reflexivity. }
  destruct (N _ S) as [A _]. lia.
Qed.
Print Assumptions C42_f32_error.
Example f32_error_reached : value_is (as_secs_f32 (2 ^ 30 + 64)) (2 ^ 30) 10.
Proof. vm_compute. reflexivity. Qed.

(** [as_secs] is the whole part of [as_secs_f32] within 2^24 ticks ... *)
Theorem C42_as_secs_is_floor : forall t, Z.abs t <= 2 ^ 24 ->
  exists r, value_is (as_secs_f32 t) r 10 /\ as_secs t = r / 1024.
Proof. intros t H. exists t. split; [apply C42_f32_exact_range; auto|]. unfold as_secs. apply shift10. Qed.
Print Assumptions C42_as_secs_is_floor.
(** ... but not beyond: the more precise function can be a whole second ahead. *)
Theorem C42_as_secs_is_floor_refuted :
  exists t r, i32 t /\ value_is (as_secs_f32 t) r 10 /\ r / 1024 = as_secs t + 1.
Proof.
  exists 16778239, 16778240. split; [unfold i32, i32_min, i32_max; lia|]. split; vm_compute; reflexivity.
Qed.
Print Assumptions C42_as_secs_is_floor_refuted.
(** Distinct scales, and distinct times, can have the same f32. *)
Theorem C42_f32_injective_refuted :
  exists a b, i32 a /\ i32 b /\ a <> b /\ scale_as_f32 a = scale_as_f32 b /\ as_secs_f32 a = as_secs_f32 b.
Proof.
  exists 16777216, 16777217. repeat split; try (unfold i32_min, i32_max; lia); vm_compute; reflexivity.
Qed.
Print Assumptions C42_f32_injective_refuted.
(** A second's worth of ticks is less than one second. *)
Theorem C42_one_second_refuted :
  SFcompare (as_secs_f32 (ticks_new ticks_per_second)) (as_f32 1) = Some Lt.
Proof. vm_compute. reflexivity. Qed.
Print Assumptions C42_one_second_refuted.

(** Concrete values: the default scale is 1.0; -1 tick; a tie; the extremes. *)
Example float_examples :
  scale_as_f32 timescale_default = as_f32 1 /\ scale_as_f64 timescale_default = as_f64 1 /\
  as_secs_f32 0 = S754_zero false /\ as_secs_f32 (-1) = S754_finite true 8388608 (-33) /\
  value_is (as_secs_f32 (-33554434)) (-33554432) 10 /\ value_is (as_secs_f32 (-33554438)) (-33554440) 10 /\
  value_is (as_secs_f32 2147483647) 2147483648 10 /\ value_is (as_secs_f32 (-2147483648)) (-2147483648) 10 /\
  value_is (scale_as_f64 2147483647) 2147483647 10.
Proof. vm_compute. repeat split; reflexivity. Qed.
Example nearest_example : nearest 24 2147483647 2147483648 /\ ~ nearest 24 2147483647 2147483520.
Proof.
  split.
  - change 2147483648 with (sround 24 2147483647). apply sround_nearest. lia.
  - intros [_ N]. assert (S : short 24 2147483648) by (exists 1, 31; vm_compute; repeat split; congruence).
    destruct (N _ S) as [A _]. vm_compute in A. congruence.
Qed.
