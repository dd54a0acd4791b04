(** What number an f32 bit pattern stands for: IEEE 754 binary32, from its fields,
    not from the decoder the arithmetic of FloatBits.v uses. *)
From Coq Require Import ZArith QArith Qabs.
Open Scope Z_scope.

(** The fields: 1 sign bit, 8 bits of exponent, 23 bits of fraction. *)
Definition f32_negative (b : Z) : bool := Z.testbit b 31.
Definition f32_exponent (b : Z) : Z := Z.land (Z.shiftr b 23) 255.
Definition f32_fraction (b : Z) : Z := Z.land b (2 ^ 23 - 1).
(** The bit pattern [b] is the finite number [q]: exponent 255 is for infinities and
    NaN, which are no numbers; exponent 0 for zeros and subnormals, without the
    implicit bit. *)
Definition f32_is (b : Z) (q : Q) : Prop :=
  0 <= b < 2 ^ 32 /\ f32_exponent b <> 255 /\
  (q == (if f32_negative b then -1 else 1) *
        (if Z.eq_dec (f32_exponent b) 0
         then inject_Z (f32_fraction b) * (2 # 1) ^ (-149)
         else inject_Z (2 ^ 23 + f32_fraction b) * (2 # 1) ^ (f32_exponent b - 150)))%Q.
(** [b] is an f32 nearest to [q]. *)
Definition f32_nearest (b : Z) (q : Q) : Prop :=
  exists p, f32_is b p /\ forall c r, f32_is c r -> (Qabs (p - q) <= Qabs (r - q))%Q.

(** 1.0, -0.75 and 0.1 (which is not exactly a tenth). *)
Example f32_is_example :
  f32_is 0x3f800000 1 /\ f32_is 0xbf400000 (-3 # 4) /\ f32_is 0x3dcccccd (13421773 # 134217728) /\ f32_is 0x80000000 0.
Proof. repeat split; vm_compute; try reflexivity; discriminate. Qed.
