(** C31, at every distance and every time: how far an integer tween goes. *)
From Verif Require Import PropertiesTween Tween TweenReal FloatReal.
From Coq Require Import ZArith Reals Lia Lra.
From Flocq Require Import Core IEEE754.BinarySingleNaN.
Open Scope Z_scope.

(** ** Specification *)

(** The time [t] is the number [num / den]: a finite f32 or f64. *)
Definition time_is (t : Tween.float) (num den : Z) : Prop :=
  match t with
  | F32 x => valid_binary 24 128 x = true /\ has_value x num den
  | F64 x => valid_binary 53 1024 x = true /\ has_value x num den
  end.
(** Moving [s] up from [from] in a type with greatest value [hi]. *)
Definition moved (hi from s : Z) : outcome Z := if (s <=? hi) && (from + s <=? hi) then Ok (from + s) else Panic.

(** ** Proofs *)
Lemma value_real x num den : has_value x num den -> is_finite_SF x = true /\ SF2R radix2 x = (IZR num / IZR den)%R.
Proof.
  intros [Hd H]. assert (Nd : IZR den <> 0%R) by (apply IZR_neq; lia).
  destruct x as [s|s| |s m e]; try contradiction.
  - subst num. split; auto. cbn [SF2R]. field. auto.
  - split; auto. unfold SF2R, F2R. cbn [Fnum Fexp].
    assert (E : (IZR (cond_Zopp s (Zpos m)) * bpow radix2 (Z.max 0 e) * IZR den = IZR num * bpow radix2 (Z.max 0 (- e)))%R).
    { rewrite <- !(IZR_Zpower radix2) by lia. rewrite <- !mult_IZR. f_equal. destruct s; exact H. }
    replace (bpow radix2 (Z.max 0 e)) with (bpow radix2 e * bpow radix2 (Z.max 0 (- e)))%R in E
      by (rewrite <- bpow_plus; f_equal; lia).
    pose proof (bpow_gt_0 radix2 (Z.max 0 (- e))) as B.
    apply Rmult_eq_reg_r with (IZR den); auto. unfold Rdiv. rewrite Rmult_assoc, (Rmult_assoc (IZR num)), Rinv_l, Rmult_1_r by auto.
    apply Rmult_eq_reg_r with (bpow radix2 (Z.max 0 (- e))); [|lra]. rewrite <- E. ring.
Qed.
Lemma time_rounds t num den : time_is t num den -> rounds (to_f32 t) (IZR num / IZR den).
Proof.
  destruct t as [x|x]; intros [V H]; destruct (value_real _ _ _ H) as [F E]; rewrite <- E.
  - apply real_rounds. split; auto.
  - destruct x as [s|s| |s m e]; try discriminate.
    + cbn [to_f32 SF2R]. apply real_rounds. split; auto.
    + apply cast_rounds. exact V.
Qed.
Lemma ease_scaled lo hi from to t num den :
  time_is t num den -> Z.abs (to - from) < 2 ^ 127 -> lo <= 0 -> lo <= from -> lo <= to - from <= hi ->
  int_ease lo hi from to t = moved hi from (scaled (IZR num / IZR den) (to - from)).
Proof.
  intros Ht Hd Hl Hf Hr. unfold int_ease. pose proof (scaled_real _ _ _ (time_rounds _ _ _ Ht) Hd) as E.
  fold (scaled (IZR num / IZR den) (to - from)) in E. rewrite E. set (s := scaled _ _) in *.
  assert (Hs : 0 <= s) by (unfold s, scaled; lia). unfold fits, moved.
  replace (lo <=? to - from) with true by (symmetry; apply Z.leb_le; lia).
  replace (to - from <=? hi) with true by (symmetry; apply Z.leb_le; lia).
  replace (lo <=? s) with true by (symmetry; apply Z.leb_le; lia).
  replace (lo <=? from + s) with true by (symmetry; apply Z.leb_le; lia).
  cbn [andb negb]. destruct (s <=? hi); [|reflexivity]. destruct (from + s <=? hi); reflexivity.
Qed.

(** At any finite time, between any two values of a type of at most 64 bits whose
    difference is representable: with [p = time * (to - from)], the tween moves up by
    some [s], at most [u32::MAX], and panics exactly if the type cannot hold [s] or
    the sum.  [s] is 0 if [p] is not positive (so no tween ever goes down) and
    otherwise [p] rounded down, up to a relative error of 2^-22 (or saturated). *)
Theorem C31_int_any_distance lo hi from to t num den :
  lo <= 0 -> lo <= from <= hi -> lo <= to - from <= hi -> Z.abs (to - from) < 2 ^ 64 ->
  time_is t num den ->
  exists s, int_ease lo hi from to t = moved hi from s /\ 0 <= s <= 4294967295 /\
    let p := num * (to - from) in
    (p <= 0 -> s = 0) /\
    (0 <= p ->
       4194304 * (s * den) <= 4194305 * p /\
       (s = 4294967295 \/ 4194303 * p < 4194304 * ((s + 1) * den))).
Proof.
  intros Hl Hf Hr Hd Ht. exists (scaled (IZR num / IZR den) (to - from)).
  assert (Hden : 0 < den) by (destruct t as [x|x]; destruct Ht as [_ [H _]]; exact H).
  split; [apply ease_scaled; auto; lia|].
  destruct (scaled_bounds (IZR num / IZR den) (to - from) Hd) as [B1 [B2 B3]].
  set (s := scaled _ _) in *. split; [exact B1|]. cbv zeta. set (D := to - from) in *.
  assert (Rd : (0 < IZR den)%R) by (apply (IZR_lt 0); auto).
  assert (Ri : (0 < / IZR den)%R) by (apply Rinv_0_lt_compat; auto).
  assert (E : (IZR num / IZR den * IZR D = IZR (num * D) * / IZR den)%R) by (rewrite mult_IZR; unfold Rdiv; ring).
  rewrite E in *. clear E. set (p := num * D) in *. split.
  - intros Hp. apply B2. apply IZR_le in Hp. nra.
  - intros Hp. destruct B3 as [C1 C2]. { apply IZR_le in Hp. nra. }
    assert (X : (IZR p = IZR p * / IZR den * IZR den)%R) by (field; lra).
    split.
    + apply le_IZR. rewrite !mult_IZR. apply Rmult_le_compat_r with (r := IZR den) in C1; [|lra].
      replace (IZR p * / IZR den * (1 + / 4194304) * IZR den)%R with (IZR p * (1 + / 4194304))%R in C1 by (field; lra). lra.
    + destruct C2 as [C2|C2]; [left; exact C2|right]. apply lt_IZR. rewrite !mult_IZR.
      apply Rmult_lt_compat_r with (r := IZR den) in C2; [|lra].
      replace (IZR p * / IZR den * (1 - / 4194304) * IZR den)%R with (IZR p * (1 - / 4194304))%R in C2 by (field; lra). lra.
Qed.
Print Assumptions C31_int_any_distance.

(** The later the time, the further an ascending tween has gone (at any distance, f32
    and f64 times mixed; the other way round for a descending one), and a tween that
    does not panic at some time does not panic at an earlier one. *)
Theorem C31_int_never_goes_back lo hi from to t num den t' num' den' r' :
  lo <= 0 -> lo <= from -> lo <= to - from <= hi -> Z.abs (to - from) < 2 ^ 127 ->
  time_is t num den -> time_is t' num' den' ->
  (if from <=? to then num * den' <= num' * den else num' * den <= num * den') ->
  int_ease lo hi from to t' = Ok r' ->
  exists r, int_ease lo hi from to t = Ok r /\ r <= r'.
Proof.
  intros Hl Hf Hr Hd Ht Ht' Hle H.
  assert (Hden : 0 < den) by (destruct t as [x|x]; destruct Ht as [_ [G _]]; exact G).
  assert (Hden' : 0 < den') by (destruct t' as [x|x]; destruct Ht' as [_ [G _]]; exact G).
  rewrite (ease_scaled lo hi from to t' num' den') in H by auto.
  rewrite (ease_scaled lo hi from to t num den) by auto.
  assert (Rd : (0 < IZR den)%R) by (apply (IZR_lt 0); auto). assert (Rd' : (0 < IZR den')%R) by (apply (IZR_lt 0); auto).
  assert (Cmp : forall a b c d, (0 < IZR b)%R -> (0 < IZR d)%R -> a * d <= c * b -> (IZR a / IZR b <= IZR c / IZR d)%R).
  { intros a b c d P1 P2 L. apply IZR_le in L. rewrite !mult_IZR in L.
    apply Rmult_le_reg_r with (IZR b * IZR d)%R; [nra|].
    replace (IZR a / IZR b * (IZR b * IZR d))%R with (IZR a * IZR d)%R by (field; lra).
    replace (IZR c / IZR d * (IZR b * IZR d))%R with (IZR c * IZR b)%R by (field; lra). exact L. }
  assert (M : scaled (IZR num / IZR den) (to - from) <= scaled (IZR num' / IZR den') (to - from)).
  { destruct (Z.leb_spec from to) as [L|L].
    - apply (proj1 (scaled_mono _ _ _ (Cmp num den num' den' Rd Rd' Hle))). lia.
    - apply (proj2 (scaled_mono _ _ _ (Cmp num' den' num den Rd' Rd Hle))). lia. }
  set (s := scaled (IZR num / IZR den) _) in *. set (s' := scaled (IZR num' / IZR den') _) in *.
  unfold moved in *. destruct (Z.leb_spec s' hi) as [L1|]; [|discriminate]. destruct (Z.leb_spec (from + s') hi) as [L2|]; [|discriminate].
  cbn [andb] in H. injection H as <-. exists (from + s).
  replace (s <=? hi) with true by (symmetry; apply Z.leb_le; lia).
  replace (from + s <=? hi) with true by (symmetry; apply Z.leb_le; lia). split; [reflexivity|lia].
Qed.
Print Assumptions C31_int_never_goes_back.

(** 0 to 3 000 000 000 as i64 at 0.25 (f32) and, later, 0.3 (f64); 8 to -2 as i32 at
    -0.5, which goes up. *)
Example C31_any_distance_example :
  time_is (F32 (S754_finite false 8388608 (-25))) 1 4 /\
  time_is (F64 (S754_finite false 5404319552844595 (-54))) 5404319552844595 18014398509481984 /\
  time_is (F32 (S754_finite true 8388608 (-24))) (-1) 2 /\
  int_ease (-9223372036854775808) 9223372036854775807 0 3000000000 (F32 (S754_finite false 8388608 (-25))) = Ok 750000000 /\
  int_ease (-9223372036854775808) 9223372036854775807 0 3000000000 (F64 (S754_finite false 5404319552844595 (-54))) = Ok 900000064 /\
  int_ease (-2147483648) 2147483647 8 (-2) (F32 (S754_finite true 8388608 (-24))) = Ok 13.
Proof. repeat split; vm_compute; reflexivity. Qed.
