(** C31: tweening. *)
From Verif Require Import Tween TweenProofs.
Open Scope Z_scope.

(** ** Specification: the exact value of a finite float is [num / den]. *)
Definition has_value (x : spec_float) (num den : Z) : Prop :=
  0 < den /\
  match x with
  | S754_zero _ => num = 0
  | S754_finite s m e => (if s then - Zpos m else Zpos m) * 2 ^ Z.max 0 e * den = num * 2 ^ Z.max 0 (- e)
  | _ => False
  end.
Definition float_val (t : float) : spec_float := match t with F32 x | F64 x => x end.

(** ** Jump tweens *)
Theorem C31_jump_exact :
  forall (T : Type) (from to : T) t,
    (forall num den, has_value (float_val t) num den ->
       (Z.abs num < den -> jump_ease from to t = from) /\
       (den <= Z.abs num -> jump_ease from to t = to)) /\
    ((float_val t = S754_nan \/ exists s, float_val t = S754_infinity s) -> jump_ease from to t = to).
Proof.
  intros T from to t. unfold jump_ease. fold (float_val t). split.
  - intros num den [Hd Hv]. destruct (float_val t) as [s|s| |s m e]; try contradiction.
    + subst num. cbn. split; [auto|lia].
    + cbn [sf_trunc]. assert (Ha : Zpos m * 2 ^ Z.max 0 e * den = Z.abs num * 2 ^ Z.max 0 (- e)).
      { pose proof (pow2_pos (Z.max 0 (- e)) ltac:(lia)) as P2. pose proof (pow2_pos (Z.max 0 e) ltac:(lia)) as P1.
        rewrite <- (Z.abs_eq (2 ^ Z.max 0 (- e))) by lia. rewrite <- Z.abs_mul, <- Hv, !Z.abs_mul.
        rewrite (Z.abs_eq (2 ^ Z.max 0 e)), (Z.abs_eq den) by lia. destruct s; reflexivity. }
      destruct (Z.leb_spec 0 e).
      * cbn [sf_is_zero]. split; [|auto]. intros Hlt. exfalso. replace (Z.max 0 (- e)) with 0 in Ha by lia.
        rewrite Z.pow_0_r, Z.mul_1_r in Ha. pose proof (pow2_pos (Z.max 0 e) ltac:(lia)).
        assert (1 <= Zpos m * 2 ^ Z.max 0 e) by nia. nia.
      * replace (Z.max 0 e) with 0 in Ha by lia. replace (Z.max 0 (- e)) with (- e) in Ha by lia.
        rewrite Z.pow_0_r, Z.mul_1_r in Ha. pose proof (pow2_pos (- e) ltac:(lia)) as Hp.
        pose proof (Z.div_mod (Zpos m) (2 ^ (- e)) ltac:(lia)) as Hdm. pose proof (Z.mod_pos_bound (Zpos m) (2 ^ (- e)) Hp) as Hb.
        destruct (Zpos m / 2 ^ (- e)) as [|q|q] eqn:Eq; cbn [sf_is_zero].
        { split; [auto|]. intros Hge. exfalso. nia. }
        { split; [|auto]. intros Hlt. exfalso. nia. }
        { exfalso. nia. }
  - intros [->|[s ->]]; reflexivity.
Qed.
Print Assumptions C31_jump_exact.

(** ** Integer tweens *)

(** Ascending by at most 2^24, at an [f32] time between 0 and 1: the result is the
    exact intermediate value rounded to one of its two integer neighbours, hence
    between the end points, and equal to them at 0 and 1. *)
Theorem C31_int_ascending_partial :
  forall lo hi from to x num den,
    lo <= 0 -> lo <= from -> from <= to -> to <= hi -> to - from <= hi -> to - from <= 16777216 ->
    has_value x num den -> 0 <= num <= den ->
    exists r, int_ease lo hi from to (F32 x) = Ok r /\
      from <= r <= to /\
      (to - from) * num / den <= r - from /\ den * (r - from) < (to - from) * num + den /\
      (num = 0 -> r = from) /\ (num = den -> r = to).
Proof.
  intros lo hi from to x num den Hlo Hf Hft Ht Hd H24 [Hden Hv] Hnum.
  set (D := to - from) in *.
  set (sc := f32_as_u32 (SFmul 24 128 x (int_as_f32 D))).
  assert (Main : 0 <= sc <= D /\ D * num / den <= sc /\ den * sc < D * num + den).
  { destruct (Z.eq_dec D 0) as [HD0|HDn].
    - assert (Es : sc = 0).
      { unfold sc. rewrite HD0. destruct x as [s|s| |s m e]; try contradiction; cbn; destruct s; reflexivity. }
      rewrite Es, HD0, Z.mul_0_l, Z.div_0_l by lia. lia.
    - assert (HD : 0 < D <= 2 ^ 24) by (change (2 ^ 24) with 16777216; lia).
      destruct x as [s|s| |s m e]; try contradiction.
      + assert (Es : sc = 0).
        { unfold sc. destruct (int_as_f32_exact D HD) as [md [ed [-> _]]]. cbn. destruct s; reflexivity. }
        rewrite Es. subst num. rewrite Z.mul_0_r, Z.div_0_l by lia. lia.
      + pose proof (pow2_pos (Z.max 0 e) ltac:(lia)) as P1. pose proof (pow2_pos (Z.max 0 (- e)) ltac:(lia)) as P2.
        assert (s = false) as -> by (destruct s; auto; exfalso; nia).
        assert (MB : forall n, 0 <= n <= 2 ^ 24 -> (D * num <= n * den -> sc <= n) /\ (n * den <= D * num -> n <= sc)).
        { intros n Hn. destruct (mul_bounds m e D n HD Hn) as [A B]. fold sc in A, B. unfold le_int, ge_int in A, B.
          assert (E : (Zpos m * D * 2 ^ Z.max 0 e) * den = (D * num) * 2 ^ Z.max 0 (- e)) by nia.
          split; intros HH; [apply A|apply B]; nia. }
        pose proof (Z.div_mod (D * num) den ltac:(lia)) as Hdm. pose proof (Z.mod_pos_bound (D * num) den Hden) as Hmb.
        set (q := D * num / den) in *.
        assert (Hq : 0 <= q <= D) by (unfold q; split; [apply Z.div_pos; nia|apply Z.div_le_upper_bound; nia]).
        assert (G1 : q <= sc) by (apply (MB q); lia).
        destruct (Z.eq_dec ((D * num) mod den) 0) as [Hz|Hz].
        * assert (L1 : sc <= q) by (apply (MB q); lia). assert (Esc : sc = q) by lia. rewrite Esc. lia.
        * assert (Hq1 : q + 1 <= D) by nia. assert (L1 : sc <= q + 1) by (apply (MB (q + 1)); lia). nia. }
  exists (from + sc). unfold int_ease. fold D. cbn [to_f32]. fold sc. unfold fits.
  replace ((lo <=? D) && (D <=? hi)) with true by (symmetry; apply andb_true_iff; split; apply Z.leb_le; lia).
  replace ((lo <=? sc) && (sc <=? hi)) with true by (symmetry; apply andb_true_iff; split; apply Z.leb_le; lia).
  replace ((lo <=? from + sc) && (from + sc <=? hi)) with true by (symmetry; apply andb_true_iff; split; apply Z.leb_le; lia).
  cbn [negb]. split; [reflexivity|]. replace (from + sc - from) with sc by lia. split; [lia|]. split; [lia|]. split; [lia|].
  split; intros ->.
  - rewrite Z.mul_0_r in Main. nia.
  - rewrite Z.div_mul in Main by lia. lia.
Qed.
Print Assumptions C31_int_ascending_partial.

(** At an [f64] time the time is first rounded to [f32]; the result is still
    between the end points and exact at 0 and 1. *)
Theorem C31_int_ascending_f64_partial :
  forall lo hi from to x num den,
    lo <= 0 -> lo <= from -> from <= to -> to <= hi -> to - from <= hi -> to - from <= 16777216 ->
    has_value x num den -> 0 <= num <= den ->
    exists r, int_ease lo hi from to (F64 x) = Ok r /\ from <= r <= to /\
      (num = 0 -> r = from) /\ (num = den -> r = to).
Proof.
  intros lo hi from to x num den Hlo Hf Hft Ht Hd H24 [Hden Hv] Hnum.
  assert (E : forall y, to_f32 (F64 x) = y -> int_ease lo hi from to (F64 x) = int_ease lo hi from to (F32 y)).
  { intros y <-. reflexivity. }
  destruct x as [s|s| |s m e]; try contradiction.
  - rewrite (E _ eq_refl).
    destruct (C31_int_ascending_partial lo hi from to (to_f32 (F64 (S754_zero s))) num den) as [r [R1 [R2 [_ [_ [R3 R4]]]]]]; auto.
    { split; auto. }
    exists r. auto.
  - assert (s = false) as ->.
    { pose proof (pow2_pos (Z.max 0 e) ltac:(lia)). pose proof (pow2_pos (Z.max 0 (- e)) ltac:(lia)). destruct s; auto; exfalso; nia. }
    rewrite (E _ eq_refl). cbn [to_f32].
    pose proof (pow2_pos (Z.max 0 e) ltac:(lia)) as P1. pose proof (pow2_pos (Z.max 0 (- e)) ltac:(lia)) as P2.
    destruct (round_bounds false m e 1 ltac:(lia)) as [A [B C]].
    assert (LE : le_int (Zpos m) e 1) by (unfold le_int; nia). specialize (A LE).
    destruct (binary_round_aux 24 128 false (Zpos m) e loc_Exact) as [s|s| |s m2 e2] eqn:Er; cbn [sf_sign] in C; try discriminate; try contradiction;
      injection C as ->.
    + (* rounded to zero: only possible for a positive time below 1 *)
      destruct (C31_int_ascending_partial lo hi from to (S754_zero false) 0 1) as [r [R1 [R2 [_ [_ [R3 R4]]]]]]; auto; try lia.
      { split; [lia|reflexivity]. }
      exists r. split; auto. split; auto. split; [intros _; auto|]. intros ->. exfalso.
      assert (GE : ge_int (Zpos m) e 1) by (unfold ge_int; nia). specialize (B GE). cbn in B. lia.
    + pose proof (pow2_pos (Z.max 0 e2) ltac:(lia)) as Q1. pose proof (pow2_pos (Z.max 0 (- e2)) ltac:(lia)) as Q2.
      cbn [sf_le] in A. unfold le_int in A. rewrite Z.mul_1_l in A.
      destruct (C31_int_ascending_partial lo hi from to (S754_finite false m2 e2) (Zpos m2 * 2 ^ Z.max 0 e2) (2 ^ Z.max 0 (- e2)))
        as [r [R1 [R2 [_ [_ [R3 R4]]]]]]; auto; try lia.
      { split; [lia|reflexivity]. }
      exists r. split; auto. split; auto. split; [intros ->; exfalso; nia|]. intros ->. apply R4.
      assert (GE : ge_int (Zpos m) e 1) by (unfold ge_int; nia). specialize (B GE). cbn [sf_ge] in B. unfold ge_int in B. lia.
Qed.
Print Assumptions C31_int_ascending_f64_partial.

(** Descending, when the difference is representable: the value never moves, at any
    non-negative time. *)
Theorem C31_int_descending_never_moves :
  forall lo hi from to t,
    lo <= 0 <= hi -> lo <= from <= hi -> to < from -> lo <= to - from ->
    sf_sign (float_val t) = Some false -> int_ease lo hi from to t = Ok from.
Proof.
  intros lo hi from to t H0 Hf Hlt Hd Hs.
  assert (Hs2 : sf_sign (to_f32 t) = Some false).
  { destruct t as [x|[s|s| |s m e]]; cbn in Hs |- *; auto. injection Hs as ->. apply round_sign. }
  unfold int_ease. rewrite (mul_neg _ (to - from) ltac:(lia) Hs2), Z.add_0_r. unfold fits.
  replace ((lo <=? to - from) && (to - from <=? hi)) with true by (symmetry; apply andb_true_iff; split; apply Z.leb_le; lia).
  replace ((lo <=? 0) && (0 <=? hi)) with true by (symmetry; apply andb_true_iff; split; apply Z.leb_le; lia).
  replace ((lo <=? from) && (from <=? hi)) with true by (symmetry; apply andb_true_iff; split; apply Z.leb_le; lia).
  reflexivity.
Qed.
Print Assumptions C31_int_descending_never_moves.

(** Whenever the difference of the end points overflows the type (always so for a
    descending unsigned tween), easing panics, at every time. *)
Theorem C31_int_overflow_panics :
  forall lo hi from to t, to - from < lo \/ hi < to - from -> int_ease lo hi from to t = Panic.
Proof.
  intros lo hi from to t H. unfold int_ease, fits.
  replace ((lo <=? to - from) && (to - from <=? hi)) with false; [reflexivity|].
  symmetry. apply andb_false_iff. rewrite !Z.leb_gt. tauto.
Qed.
Print Assumptions C31_int_overflow_panics.

Definition f_one : spec_float := S754_finite false 8388608 (-23).
Definition f_half : spec_float := S754_finite false 8388608 (-24).
Definition f_minus_one : spec_float := S754_finite true 8388608 (-23).

(** The property is false: descending tweens end where they started or panic; more
    than 2^24 apart the end point is missed (overshot by rounding, or never reached
    by the saturating cast); and a jump tween jumps at time -1. *)
Theorem C31_end_points_refuted :
  (* i32, 8 -> -2, at 1.0 *)
  int_ease (-2147483648) 2147483647 8 (-2) (F32 f_one) = Ok 8 /\
  (* u8, 8 -> 2, at 0.5 *)
  int_ease 0 255 8 2 (F32 f_half) = Panic /\
  (* i8, -100 -> 100, at 0.5 *)
  int_ease (-128) 127 (-100) 100 (F32 f_half) = Panic /\
  (* i32, 0 -> 2^24+3, at 1.0: beyond the end point *)
  int_ease (-2147483648) 2147483647 0 16777219 (F32 f_one) = Ok 16777220 /\
  (* u32, 0 -> u32::MAX - 1 at 1.0: past the end point *)
  int_ease 0 4294967295 0 4294967294 (F32 f_one) = Ok 4294967295 /\
  (* i64, 0 -> 2^33, at 1.0: not reached *)
  int_ease (-9223372036854775808) 9223372036854775807 0 8589934592 (F32 f_one) = Ok 4294967295 /\
  (* a jump tween at -1.0 *)
  jump_ease 1 2 (F32 f_minus_one) = 2.
Proof. repeat split; vm_compute; reflexivity. Qed.
Print Assumptions C31_end_points_refuted.

(** Hypotheses (the repository's own test values: -2 to 8, at 0.5, 0 and 1). *)
Example C31_example :
  has_value f_half 1 2 /\ has_value f_one 1 1 /\ has_value (S754_zero false) 0 1 /\
  int_ease (-2147483648) 2147483647 (-2) 8 (F32 f_half) = Ok 3 /\
  int_ease (-2147483648) 2147483647 (-2) 8 (F32 f_one) = Ok 8 /\
  int_ease (-2147483648) 2147483647 (-2) 8 (F64 (S754_finite false 4503599627370496 (-53))) = Ok 3 /\
  jump_ease (-2) 8 (F32 f_half) = -2 /\ jump_ease (-2) 8 (F32 f_one) = 8.
Proof. repeat split; vm_compute; reflexivity. Qed.
