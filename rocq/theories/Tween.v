(** Tweening wrappers: client/rust/src/contract/properties/channels/misc.rs.
    IEEE 754 arithmetic is Coq's own [SpecFloat] (round to nearest even); NaN
    payloads are not represented. *)
From Verif Require Export Base.
From Coq Require Export Floats.SpecFloat.
Open Scope Z_scope.

(** [impl Float] is [f32] or [f64]. *)
Inductive float : Type := F32 (x : spec_float) | F64 (x : spec_float).

(** [Float::trunc]: remove the fractional part, keeping the sign (the result's
    mantissa is not normalised here; it is only tested for zero). *)
Definition sf_trunc (x : spec_float) : spec_float :=
  match x with
  | S754_finite s m e =>
      if 0 <=? e then x
      else match Zpos m / 2 ^ (- e) with
           | Zpos q => S754_finite s q 0
           | _ => S754_zero s
           end
  | _ => x
  end.
(** [Zero::is_zero]: [x == 0.0], true of both zeros. *)
Definition sf_is_zero (x : spec_float) : bool := match x with S754_zero _ => true | _ => false end.

(** misc.rs:10-17 [JumpTweenable::ease]. *)
Definition jump_ease {T} (from to : T) (time : float) : T :=
  let x := match time with F32 x | F64 x => x end in
  if sf_is_zero (sf_trunc x) then from else to.

(** [ToPrimitive::to_f32]: the identity on [f32], [x as f32] on [f64]; always
    [Some]. *)
Definition to_f32 (t : float) : spec_float :=
  match t with
  | F32 x => x
  | F64 (S754_finite s m e) => binary_round_aux 24 128 s (Zpos m) e loc_Exact
  | F64 x => x
  end.

(** [x as f32] from an integer: rounded to nearest even. *)
Definition int_as_f32 (z : Z) : spec_float := binary_normalize 24 128 z 0 false.

(** [x as u32] from [f32]: truncated towards zero, saturating, NaN is 0. *)
Definition u32_max : Z := 4294967295.
Definition f32_as_u32 (x : spec_float) : Z :=
  match x with
  | S754_finite false m e =>
      Z.min u32_max (if 0 <=? e then Zpos m * 2 ^ e else Zpos m / 2 ^ (- e))
  | S754_infinity false => u32_max
  | _ => 0
  end.

(** misc.rs:22-33 [IntTweenable::ease] for an integer type with range [lo..hi]:
    the subtraction and the addition panic on overflow (overflow checks on), and
    [from_u32(..).unwrap()] panics if the value does not fit. *)
Definition fits (lo hi z : Z) : bool := (lo <=? z) && (z <=? hi).
Definition int_ease (lo hi : Z) (from to : Z) (time : float) : outcome Z :=
  let d := to - from in
  if negb (fits lo hi d) then Panic
  else
    let diff := int_as_f32 d in
    let scaled := f32_as_u32 (SFmul 24 128 (to_f32 time) diff) in
    if negb (fits lo hi scaled) then Panic
    else let r := from + scaled in
         if negb (fits lo hi r) then Panic else Ok r.
