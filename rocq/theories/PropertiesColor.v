(** C35: colour packing of the Unity demo. *)
From Verif Require Import Color.
Open Scope Z_scope.

Definition ushort (x : Z) : Prop := 0 <= x < 65536.

Lemma u16_shift z : ushort z <-> Z.shiftr z 16 = 0.
Proof.
  unfold ushort. rewrite Z.shiftr_div_pow2 by lia. change (2 ^ 16) with 65536.
  pose proof (Z.div_mod z 65536 ltac:(lia)). pose proof (Z.mod_pos_bound z 65536 ltac:(lia)). lia.
Qed.
Lemma lor_u16 x y : ushort x -> ushort y -> ushort (Z.lor x y).
Proof. rewrite !u16_shift. intros Hx Hy. rewrite Z.shiftr_lor, Hx, Hy. reflexivity. Qed.
Lemma disjoint_lor h l : ushort l -> Z.lor (Z.shiftl h 16) l = h * 65536 + l.
Proof.
  intros Hl. assert (Hd : Z.land (Z.shiftl h 16) l = 0).
  { apply Z.bits_inj'. intros n Hn. rewrite Z.land_spec, Z.bits_0. destruct (Z.lt_ge_cases n 16).
    - rewrite Z.shiftl_spec_low by lia. reflexivity.
    - replace l with (l mod 2 ^ 16) by (apply Z.mod_small; exact Hl). rewrite Z.mod_pow2_bits_high by lia. apply andb_false_r. }
  rewrite <- Z.lxor_lor, <- Z.add_nocarry_lxor by exact Hd. rewrite Z.shiftl_mul_pow2 by lia. reflexivity.
Qed.

Lemma wrap32_low z : Z.land (wrap32 z) 4294967295 = z mod 4294967296.
Proof.
  change 4294967295 with (Z.ones 32). rewrite Z.land_ones by lia. change (2 ^ 32) with 4294967296.
  unfold wrap32. rewrite Zminus_mod_idemp_l. f_equal. lia.
Qed.
Lemma wrap32_range z : -2147483648 <= wrap32 z < 2147483648.
Proof. unfold wrap32. pose proof (Z.mod_pos_bound (z + 2147483648) 4294967296). lia. Qed.
Lemma wrap32_mod z : wrap32 (z mod 4294967296) = wrap32 z.
Proof. unfold wrap32. rewrite Zplus_mod_idemp_l. reflexivity. Qed.
Lemma wrap32_id z : -2147483648 <= z < 2147483648 -> wrap32 z = z.
Proof. intros H. unfold wrap32. rewrite Z.mod_small; lia. Qed.

(** In 32-bit two's complement, or-ing commutes with wrapping. *)
Lemma wrap32_lor x y : wrap32 (Z.lor x y) = Z.lor (wrap32 x) (wrap32 y).
Proof.
  assert (E : forall z, wrap32 z = wrap32 (Z.land z 4294967295)).
  { intros z. change 4294967295 with (Z.ones 32). rewrite Z.land_ones by lia. symmetry. apply wrap32_mod. }
  assert (Hr : -2147483648 <= Z.lor (wrap32 x) (wrap32 y) < 2147483648).
  { pose proof (wrap32_range x) as Hx. pose proof (wrap32_range y) as Hy.
    assert (B : forall z, -2147483648 <= z < 2147483648 <-> Z.shiftr z 31 = 0 \/ Z.shiftr z 31 = -1).
    { intros z. rewrite Z.shiftr_div_pow2 by lia. change (2 ^ 31) with 2147483648.
      pose proof (Z.div_mod z 2147483648 ltac:(lia)). pose proof (Z.mod_pos_bound z 2147483648 ltac:(lia)). lia. }
    apply B. rewrite Z.shiftr_lor. apply B in Hx. apply B in Hy.
    destruct Hx as [->| ->], Hy as [->| ->]; cbn; auto. }
  rewrite <- (wrap32_id _ Hr). rewrite E. rewrite (E (Z.lor (wrap32 x) (wrap32 y))).
  f_equal. rewrite !Z.land_lor_distr_l, !wrap32_low. change 4294967295 with (Z.ones 32). rewrite !Z.land_ones by lia. reflexivity.
Qed.

Lemma pack_eq r g b a : ushort r -> ushort g -> ushort b -> ushort a ->
  pack r g b a = int_to_ulong (wrap32 (Z.lor r b * 65536 + Z.lor g a)).
Proof.
  intros Hr Hg Hb Ha. unfold pack. f_equal. unfold shl_int. change (48 mod 32) with 16. change (32 mod 32) with 0. change (16 mod 32) with 16.
  assert (Ea : a = wrap32 a) by (rewrite wrap32_id; auto; unfold ushort in *; lia). rewrite Ea at 1.
  rewrite <- !wrap32_lor. f_equal. change (2 ^ 16) with 65536. change (2 ^ 0) with 1. rewrite Z.mul_1_r.
  assert (Es : forall x, x * 65536 = Z.shiftl x 16) by (intros x; rewrite Z.shiftl_mul_pow2 by lia; reflexivity).
  rewrite !Es. pose proof (lor_u16 _ _ Hr Hb) as Hrb. pose proof (lor_u16 _ _ Hg Ha) as Hga.
  transitivity (Z.lor (Z.shiftl (Z.lor r b) 16) (Z.lor g a)).
  - rewrite Z.shiftl_lor. rewrite <- !Z.lor_assoc. f_equal. rewrite (Z.lor_comm g), <- Z.lor_assoc, (Z.lor_comm a g). reflexivity.
  - rewrite (disjoint_lor _ _ Hga), Es. reflexivity.  
Qed.

(** What is packed: red and blue are or-ed together, green and alpha are or-ed
    together, and bit 31 is spread over the upper half. *)
Theorem C35_exact_value :
  forall r g b a, ushort r -> ushort g -> ushort b -> ushort a ->
    let v := Z.lor r b * 65536 + Z.lor g a in
    pack r g b a = if v <? 2147483648 then v else 18446744069414584320 + v.
Proof.
  intros r g b a Hr Hg Hb Ha v. rewrite pack_eq by auto. fold v.
  pose proof (lor_u16 _ _ Hr Hb) as H1. pose proof (lor_u16 _ _ Hg Ha) as H2. unfold ushort in H1, H2.
  unfold int_to_ulong, wrap32. destruct (Z.ltb_spec v 2147483648).
  - rewrite (Z.mod_small (v + _)) by lia. rewrite Z.mod_small by lia. lia.
  - replace (v + 2147483648) with (v - 2147483648 + 1 * 4294967296) by lia. rewrite Z.mod_add, (Z.mod_small (v - _)) by lia.
    replace (v - 2147483648 - 2147483648) with (v - 4294967296 + 18446744073709551616 + (-1) * 18446744073709551616) by lia.
    rewrite Z.mod_add, Z.mod_small by lia. lia.
Qed.
Print Assumptions C35_exact_value.

(** Two colours are packed alike exactly when these unions agree. *)
Theorem C35_collisions_exact :
  forall r g b a r' g' b' a',
    ushort r -> ushort g -> ushort b -> ushort a -> ushort r' -> ushort g' -> ushort b' -> ushort a' ->
    (pack r g b a = pack r' g' b' a' <-> Z.lor r b = Z.lor r' b' /\ Z.lor g a = Z.lor g' a').
Proof.
  intros. rewrite !C35_exact_value by auto. cbn zeta.
  assert (A1 := lor_u16 r b ltac:(auto) ltac:(auto)). assert (A2 := lor_u16 g a ltac:(auto) ltac:(auto)).
  assert (A3 := lor_u16 r' b' ltac:(auto) ltac:(auto)). assert (A4 := lor_u16 g' a' ltac:(auto) ltac:(auto)).
  unfold ushort in A1, A2, A3, A4.
  destruct (Z.ltb_spec (Z.lor r b * 65536 + Z.lor g a) 2147483648), (Z.ltb_spec (Z.lor r' b' * 65536 + Z.lor g' a') 2147483648); lia.
Qed.
Print Assumptions C35_collisions_exact.

(** Injective only on colours without blue and with full information in red and
    green against alpha: e.g. for fixed blue 0 and alpha 0. *)
Theorem C35_unpackable_without_blue_and_alpha_partial :
  forall r g r' g', ushort r -> ushort g -> ushort r' -> ushort g' ->
    pack r g 0 0 = pack r' g' 0 0 -> r = r' /\ g = g'.
Proof.
  intros r g r' g' Hr Hg Hr' Hg' E. assert (H0 : ushort 0) by (unfold ushort; lia).
  apply (C35_collisions_exact r g 0 0 r' g' 0 0) in E; auto. rewrite !Z.lor_0_r in E. exact E.
Qed.
Print Assumptions C35_unpackable_without_blue_and_alpha_partial.

(** The property is false: red and blue are indistinguishable, and at full opacity
    (alpha 65535) green is lost altogether. *)
Theorem C35_packing_is_not_injective_refuted :
  pack 65535 0 0 65535 = pack 0 0 65535 65535 /\
  forall r g g' b, ushort r -> ushort g -> ushort g' -> ushort b -> pack r g b 65535 = pack r g' b 65535.
Proof.
  split; [reflexivity|]. intros r g g' b Hr Hg Hg' Hb. assert (Hm : ushort 65535) by (unfold ushort; lia).
  apply C35_collisions_exact; auto. split; auto.
  assert (E : forall x, ushort x -> Z.lor x 65535 = 65535).
  { intros x Hx. change 65535 with (Z.ones 16) at 1. rewrite Z.lor_ones_low; [reflexivity|unfold ushort in Hx; lia|].
    destruct (Z.eq_dec x 0) as [->|]; [cbn; lia|]. apply Z.log2_lt_pow2; unfold ushort in Hx; [lia|]. change (2 ^ 16) with 65536. lia. }
  rewrite !E by auto. reflexivity.
Qed.
Print Assumptions C35_packing_is_not_injective_refuted.
Example C35_example : ushort 40000 /\ ushort 7 /\ pack 40000 7 0 0 = 18446744072036024327 /\ pack 7 40000 0 0 = 498752.
Proof. repeat split; unfold ushort; try lia; reflexivity. Qed.
