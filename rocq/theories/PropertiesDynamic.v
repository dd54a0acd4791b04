(** C24: dynamic properties compare and convert faithfully. *)
From Verif Require Import BaseProofs Dynamic.
Import Coq.Strings.String.StringSyntax.
Open Scope string_scope.
Open Scope list_scope.

(** Conversion to dynamic has the declared type. *)
Theorem C24_prop_type_of_converted :
  forall t (x : rtype t), prop_type (dyn_from t x) = t.
Proof. intros [p|p] x; destruct p; reflexivity. Qed.
Print Assumptions C24_prop_type_of_converted.

(** Every dynamic value is the conversion of exactly one static value, of its
    own type. *)
Theorem C24_every_dynamic_value_is_static :
  forall d, exists x : rtype (prop_type d), d = dyn_from (prop_type d) x.
Proof. intros [p|v]; [destruct p|destruct v]; cbn; eexists; reflexivity. Qed.
Print Assumptions C24_every_dynamic_value_is_static.

(** There and back. *)
Theorem C24_roundtrip : forall t (x : rtype t), try_into t (dyn_from t x) = Some x.
Proof. intros [p|p] x; destruct p; reflexivity. Qed.
Print Assumptions C24_roundtrip.

Theorem C24_try_into_sound :
  forall t d (x : rtype t), try_into t d = Some x <-> d = dyn_from t x.
Proof.
  intros t d x. split; [|intros ->; apply C24_roundtrip].
  destruct t as [p|p], d as [q|q]; cbn; try discriminate; destruct p, q; cbn; try discriminate;
    intros H; injection H as <-; reflexivity.
Qed.
Print Assumptions C24_try_into_sound.

Theorem C24_try_into_fails_iff_other_type :
  forall t d, try_into t d = None <-> prop_type d <> t.
Proof.
  intros t d. split.
  - intros H E. destruct (C24_every_dynamic_value_is_static d) as [x Hx].
    subst t. apply C24_try_into_sound in Hx. congruence.
  - intros H. destruct (try_into t d) as [x|] eqn:E; auto. exfalso.
    apply C24_try_into_sound in E. subst d. apply H. apply C24_prop_type_of_converted.
Qed.
Print Assumptions C24_try_into_fails_iff_other_type.

(** Equality of a dynamic and a static value, in both operand orders. *)
Lemma list_eqb_sym {A} (e : A -> A -> bool) :
  (forall x y, e x y = e y x) -> forall a b, list_eqb e a b = list_eqb e b a.
Proof.
  intros He a. induction a as [|x a IH]; intros [|y b]; cbn; auto. rewrite He, IH. reflexivity.
Qed.
Lemma key_eqb_sym a b : key_eqb a b = key_eqb b a.
Proof. destruct a, b; cbn; auto. apply Z.eqb_sym. Qed.
Lemma rprim_eqb_sym p x y : rprim_eqb p x y = rprim_eqb p y x.
Proof.
  destruct p; cbn; try apply Z.eqb_sym; try apply key_eqb_sym.
  - destruct x, y; reflexivity.
  - apply String.eqb_sym.
  - unfold index_eqb. rewrite Nat.eqb_sym, N.eqb_sym. reflexivity.
  - unfold index_eqb. rewrite Nat.eqb_sym, N.eqb_sym. reflexivity.
Qed.
Lemma rtype_eqb_sym t x y : rtype_eqb t x y = rtype_eqb t y x.
Proof. destruct t; cbn; [apply list_eqb_sym|]; intros; apply rprim_eqb_sym. Qed.

Lemma dyn_eq_static_spec t d x :
  dyn_eq_static t d x = match try_into t d with Some y => rtype_eqb t y x | None => false end.
Proof. destruct t as [p|p], d as [q|q]; cbn; auto. Qed.

Theorem C24_dyn_equals_static_iff :
  forall t d (x : rtype t),
    dyn_eq_static t d x = true <-> exists y, d = dyn_from t y /\ rtype_eqb t y x = true.
Proof.
  intros t d x. rewrite dyn_eq_static_spec. destruct (try_into t d) as [y|] eqn:E.
  - apply C24_try_into_sound in E. subst d. split; [eauto|].
    intros [z [Hz H]]. rewrite <- (C24_try_into_sound t (dyn_from t y) z) in Hz.
    rewrite C24_roundtrip in Hz. congruence.
  - split; [discriminate|]. intros [y [-> _]]. rewrite C24_roundtrip in E. discriminate.
Qed.
Print Assumptions C24_dyn_equals_static_iff.

Theorem C24_static_equals_dyn_iff :
  forall t (x : rtype t) d,
    static_eq_dyn t x d = true <-> exists y, d = dyn_from t y /\ rtype_eqb t x y = true.
Proof.
  intros t x d. unfold static_eq_dyn. rewrite C24_dyn_equals_static_iff.
  split; intros [y [H1 H2]]; exists y; split; auto; rewrite rtype_eqb_sym; auto.
Qed.
Print Assumptions C24_static_equals_dyn_iff.

(** The primitive-level and vector-level operators agree with it, in both orders. *)
Theorem C24_operand_order_irrelevant :
  forall p,
    (forall d (x : rprim p), prim_eq_static p d x = static_eq_prim p x d) /\
    (forall d (x : list (rprim p)), vec_eq_static p d x = static_eq_vec p x d).
Proof.
  intros p. unfold prim_eq_static, static_eq_prim, vec_eq_static, static_eq_vec. split; intros d x.
  - destruct (prim_try_into p d); auto. apply rprim_eqb_sym.
  - destruct (vec_try_into p d); auto. apply list_eqb_sym, rprim_eqb_sym.
Qed.
Print Assumptions C24_operand_order_irrelevant.

(** Equality of two dynamic values: same type and equal values. *)
Theorem C24_dyn_equals_dyn_iff :
  forall a b, dynprop_eqb a b = true <->
    exists t x y, a = dyn_from t x /\ b = dyn_from t y /\ rtype_eqb t x y = true.
Proof.
  intros a b. split.
  - intros H. destruct a as [p|p], b as [q|q]; try discriminate; destruct p as [x|x|x|x|x|x|x|x|x|x|x|x|x|x], q as [y|y|y|y|y|y|y|y|y|y|y|y|y|y];
      try discriminate;
      match goal with |- exists t x y, ?a = _ /\ _ => exists (prop_type a) end; exists x, y; auto.
  - intros [t [x [y [-> [-> H]]]]]. destruct t as [p|p]; destruct p; exact H.
Qed.
Print Assumptions C24_dyn_equals_dyn_iff.

(** On everything but floats equality is identity. *)
Lemma list_eqb_eq {A} (e : A -> A -> bool) :
  (forall x y, e x y = true <-> x = y) -> forall a b, list_eqb e a b = true <-> a = b.
Proof.
  intros He a. induction a as [|x a IH]; intros [|y b]; cbn; split; intros H; try discriminate; auto.
  - apply andb_true_iff in H. destruct H as [H1 H2]. apply He in H1. apply IH in H2. congruence.
  - injection H as <- <-. apply andb_true_iff. split; [apply He|apply IH]; auto.
Qed.

Theorem C24_equality_is_identity_off_floats :
  forall t (x y : rtype t), primitive_type t <> TF32 -> primitive_type t <> TF64 ->
    (rtype_eqb t x y = true <-> x = y).
Proof.
  assert (Hp : forall p, p <> TF32 -> p <> TF64 -> forall x y : rprim p, rprim_eqb p x y = true <-> x = y).
  { intros p H1 H2 x y. destruct p; cbn in *; try (apply Z.eqb_eq); try congruence.
    - destruct x, y; cbn; split; congruence.
    - apply String.eqb_eq.
    - apply index_eqb_eq.
    - apply index_eqb_eq. }
  intros [p|p] x y H1 H2; cbn in *; [apply list_eqb_eq|]; intros; apply Hp; auto.
Qed.
Print Assumptions C24_equality_is_identity_off_floats.

(** On floats it is IEEE equality: NaN differs from everything, -0.0 equals 0.0,
    and two other patterns are equal only if identical. *)
Lemma key_mag (e m b : Z) :
  (0 <= e)%Z -> (0 <= m)%Z -> (0 <= b < 2 * 2 ^ (e + m))%Z ->
  b = ((b / 2 ^ (e + m)) mod 2 * 2 ^ (e + m) + b mod 2 ^ (e + m))%Z.
Proof.
  intros He Hm Hb. assert (Hp : (0 < 2 ^ (e + m))%Z) by (apply Z.pow_pos_nonneg; lia).
  pose proof (Z.div_mod b (2 ^ (e + m))). 
  assert (0 <= b / 2 ^ (e + m) < 2)%Z.
  { split; [apply Z.div_pos; lia|apply Z.div_lt_upper_bound; lia]. }
  rewrite (Z.mod_small (b / 2 ^ (e + m)) 2) by lia. lia.
Qed.

Theorem C24_f32_equality :
  forall x y : Z, (0 <= x < 2 ^ 32)%Z -> (0 <= y < 2 ^ 32)%Z ->
    (f32_eqb x y = true <->
     f32_key x <> None /\ f32_key y <> None /\
     (x = y \/ (x mod 2 ^ 31 = 0 /\ y mod 2 ^ 31 = 0)%Z)).
Proof.
  intros x y Hx Hy. pose proof (key_mag 8 23 x) as Kx. pose proof (key_mag 8 23 y) as Ky.
  unfold f32_eqb, f32_key, fkey, key_eqb. change (8 + 23)%Z with 31%Z in *.
  change (2 * 2 ^ 31)%Z with (2 ^ 32)%Z in *.
  pose proof (Z.mod_pos_bound x (2 ^ 31) eq_refl) as Mx. pose proof (Z.mod_pos_bound y (2 ^ 31) eq_refl) as My.
  pose proof (Z.mod_pos_bound (x / 2 ^ 31) 2 eq_refl) as Sx. pose proof (Z.mod_pos_bound (y / 2 ^ 31) 2 eq_refl) as Sy.
  specialize (Kx ltac:(lia) ltac:(lia) Hx). specialize (Ky ltac:(lia) ltac:(lia) Hy).
  set (mx := (x mod 2 ^ 31)%Z) in *. set (my := (y mod 2 ^ 31)%Z) in *.
  set (sx := ((x / 2 ^ 31) mod 2)%Z) in *. set (sy := ((y / 2 ^ 31) mod 2)%Z) in *.
  clearbody mx my sx sy.
  destruct ((2 ^ 8 - 1) * 2 ^ 23 <? mx)%Z; [split; [discriminate|tauto]|].
  destruct ((2 ^ 8 - 1) * 2 ^ 23 <? my)%Z; [split; [discriminate|tauto]|].
  destruct (Z.eqb_spec sx 1), (Z.eqb_spec sy 1); rewrite Z.eqb_eq.
  - split; [intros; split; [discriminate|split; [discriminate|]]; left; lia|intros [_ [_ [->|[-> ->]]]]; lia].
  - split; [intros; split; [discriminate|split; [discriminate|]]; right; lia|intros [_ [_ [E|[-> ->]]]]; lia].
  - split; [intros; split; [discriminate|split; [discriminate|]]; right; lia|intros [_ [_ [E|[-> ->]]]]; lia].
  - split; [intros; split; [discriminate|split; [discriminate|]]; left; lia|intros [_ [_ [E|[-> ->]]]]; lia].
Qed.
Print Assumptions C24_f32_equality.

Theorem C24_f64_equality :
  forall x y : Z, (0 <= x < 2 ^ 64)%Z -> (0 <= y < 2 ^ 64)%Z ->
    (f64_eqb x y = true <->
     f64_key x <> None /\ f64_key y <> None /\
     (x = y \/ (x mod 2 ^ 63 = 0 /\ y mod 2 ^ 63 = 0)%Z)).
Proof.
  intros x y Hx Hy. pose proof (key_mag 11 52 x) as Kx. pose proof (key_mag 11 52 y) as Ky.
  unfold f64_eqb, f64_key, fkey, key_eqb. change (11 + 52)%Z with 63%Z in *.
  change (2 * 2 ^ 63)%Z with (2 ^ 64)%Z in *.
  pose proof (Z.mod_pos_bound x (2 ^ 63) eq_refl) as Mx. pose proof (Z.mod_pos_bound y (2 ^ 63) eq_refl) as My.
  pose proof (Z.mod_pos_bound (x / 2 ^ 63) 2 eq_refl) as Sx. pose proof (Z.mod_pos_bound (y / 2 ^ 63) 2 eq_refl) as Sy.
  specialize (Kx ltac:(lia) ltac:(lia) Hx). specialize (Ky ltac:(lia) ltac:(lia) Hy).
  set (mx := (x mod 2 ^ 63)%Z) in *. set (my := (y mod 2 ^ 63)%Z) in *.
  set (sx := ((x / 2 ^ 63) mod 2)%Z) in *. set (sy := ((y / 2 ^ 63) mod 2)%Z) in *.
  clearbody mx my sx sy.
  destruct ((2 ^ 11 - 1) * 2 ^ 52 <? mx)%Z; [split; [discriminate|tauto]|].
  destruct ((2 ^ 11 - 1) * 2 ^ 52 <? my)%Z; [split; [discriminate|tauto]|].
  destruct (Z.eqb_spec sx 1), (Z.eqb_spec sy 1); rewrite Z.eqb_eq.
  - split; [intros; split; [discriminate|split; [discriminate|]]; left; lia|intros [_ [_ [->|[-> ->]]]]; lia].
  - split; [intros; split; [discriminate|split; [discriminate|]]; right; lia|intros [_ [_ [E|[-> ->]]]]; lia].
  - split; [intros; split; [discriminate|split; [discriminate|]]; right; lia|intros [_ [_ [E|[-> ->]]]]; lia].
  - split; [intros; split; [discriminate|split; [discriminate|]]; left; lia|intros [_ [_ [E|[-> ->]]]]; lia].
Qed.
Print Assumptions C24_f64_equality.

(** NaN is exactly the patterns above the infinity pattern (mantissa non-zero). *)
Theorem C24_f32_nan_iff :
  forall x, f32_key x = None <-> (2139095040 < x mod 2147483648)%Z.
Proof.
  intros x. unfold f32_key, fkey. change ((2 ^ 8 - 1) * 2 ^ 23)%Z with 2139095040%Z.
  change (2 ^ (8 + 23))%Z with 2147483648%Z.
  destruct (Z.ltb_spec 2139095040 (x mod 2147483648)); split; intros; try discriminate; auto; lia.
Qed.
Print Assumptions C24_f32_nan_iff.

Theorem C24_f64_nan_iff :
  forall x, f64_key x = None <-> (9218868437227405312 < x mod 9223372036854775808)%Z.
Proof.
  intros x. unfold f64_key, fkey. change ((2 ^ 11 - 1) * 2 ^ 52)%Z with 9218868437227405312%Z.
  change (2 ^ (11 + 52))%Z with 9223372036854775808%Z.
  destruct (Z.ltb_spec 9218868437227405312 (x mod 9223372036854775808)); split; intros; try discriminate; auto; lia.
Qed.
Print Assumptions C24_f64_nan_iff.

(** Borrowing preserves type and value. *)
Theorem C24_borrow_preserves_value :
  forall t (x : rtype t), borrow (dyn_from t x) = ref_from t x.
Proof. intros [p|p] x; destruct p; reflexivity. Qed.
Print Assumptions C24_borrow_preserves_value.

Theorem C24_borrow_preserves_type : forall d, ref_type (borrow d) = prop_type d.
Proof. intros [p|v]; [destruct p|destruct v]; reflexivity. Qed.
Print Assumptions C24_borrow_preserves_type.

Theorem C24_borrow_preserves_equality :
  forall a b, ref_eqb (borrow a) (borrow b) = dynprop_eqb a b.
Proof.
  intros [p|p] [q|q]; destruct p, q; reflexivity.
Qed.
Print Assumptions C24_borrow_preserves_equality.

Example dynamic_examples :
  dyn_eq_static (TPrim TU16) (PPrim (VU16 1337)) 1337%Z = true /\
  dyn_eq_static (TPrim TU32) (PPrim (VU16 1337)) 1337%Z = false /\
  dyn_eq_static (TVec TU16) (PPrim (VU16 1)) [1%Z] = false /\
  static_eq_dyn (TPrim TString) "a" (PPrim (VString "a")) = true /\
  f32_eqb 2143289344 2143289344 = false /\ f32_eqb 2147483648 0 = true /\
  try_into (TPrim TU8) (PPrim (VU16 3)) = None.
Proof. vm_compute. auto 10. Qed.
