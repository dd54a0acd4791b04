(** f32 arithmetic on bit patterns (the representation of values in Types.v), by
    way of Coq's [SpecFloat] (IEEE 754, round to nearest even).  The payload and
    sign of a NaN result, which Rust leaves unspecified, is the canonical one. *)
From Verif Require Export Base.
From Coq Require Export Floats.SpecFloat.
Open Scope Z_scope.

Definition f32_decode (b : Z) : spec_float :=
  let s := 2147483648 <=? b in
  let e := (b / 8388608) mod 256 in
  let m := b mod 8388608 in
  if e =? 255 then (if m =? 0 then S754_infinity s else S754_nan)
  else if e =? 0 then
    match m with Zpos p => S754_finite s p (-149) | _ => S754_zero s end
  else match m + 8388608 with Zpos p => S754_finite s p (e - 150) | _ => S754_nan end.

Definition f32_sign (s : bool) : Z := if s then 2147483648 else 0.
Definition f32_encode (x : spec_float) : Z :=
  match x with
  | S754_zero s => f32_sign s
  | S754_infinity s => f32_sign s + 255 * 8388608
  | S754_nan => 2143289344
  | S754_finite s m e =>
      f32_sign s + (if Zpos m <? 8388608 then Zpos m else (e + 150) * 8388608 + (Zpos m - 8388608))
  end.

Definition f32_add (a b : Z) : Z := f32_encode (SFadd 24 128 (f32_decode a) (f32_decode b)).
Definition f32_sub (a b : Z) : Z := f32_encode (SFsub 24 128 (f32_decode a) (f32_decode b)).
Definition f32_mul (a b : Z) : Z := f32_encode (SFmul 24 128 (f32_decode a) (f32_decode b)).
Definition f32_div (a b : Z) : Z := f32_encode (SFdiv 24 128 (f32_decode a) (f32_decode b)).
(** [n as f32] for a [usize]. *)
Definition f32_of_nat (n : nat) : Z := f32_encode (binary_normalize 24 128 (Z.of_nat n) 0 false).
