(** What it means for a float to be a given fraction, and for an integer to be the
    nearest one of a given number of bits.  Nothing here refers to the model. *)
From Coq Require Import ZArith Floats.SpecFloat.
Open Scope Z_scope.

(** The value of a float is [n / 2^k]. *)
Definition value_is (x : spec_float) (n k : Z) : Prop :=
  match x with
  | S754_zero _ => n = 0
  | S754_finite s m e => (if s then - Zpos m else Zpos m) * 2 ^ Z.max 0 (e + k) = n * 2 ^ Z.max 0 (- (e + k))
  | _ => False
  end.
(** Integers with at most [p] significant bits. *)
Definition short (p r : Z) : Prop := exists m k, 0 <= k /\ Z.abs m < 2 ^ p /\ r = m * 2 ^ k.
(** [r] is the [p]-bit integer nearest to [n]; of two equally near ones, the one
    whose last bit is zero. *)
Definition nearest (p n r : Z) : Prop :=
  short p r /\ forall r', short p r' ->
    Z.abs (n - r) <= Z.abs (n - r') /\ (r' <> r -> Z.abs (n - r) = Z.abs (n - r') -> short (p - 1) r).

