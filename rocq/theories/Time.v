(** Ticks, time scales and time warps.  client/rust/src/time/mod.rs. *)
From Verif Require Export Types.
Open Scope Z_scope.

(** i32 bounds and conversions. *)
Definition i32_min : Z := -2147483648.
Definition i32_max : Z := 2147483647.
(** Saturation, [i32::saturating_*]. *)
Definition sat_i32 (z : Z) : Z := Z.max i32_min (Z.min i32_max z).
(** [x as i32] from a wider integer: two's-complement truncation. *)
Definition wrap_i32 (z : Z) : Z := (z + 2147483648) mod 4294967296 - 2147483648.

(** time/mod.rs:7 [struct Ticks(i32)]: a [Z] in the i32 range. *)
Definition ticks := Z.

(** time/mod.rs:10-12. *)
Definition ticks_per_second : Z := 1000.

(** time/mod.rs:28-30 [self.0 >> 10], an arithmetic shift. *)
Definition as_secs (t : ticks) : Z := Z.shiftr t 10.

(** time/mod.rs:14-24 [new], [as_millis], [as_millis_i64]. *)
Definition ticks_new (millis : Z) : ticks := millis.
Definition as_millis (t : ticks) : Z := t.

(** time/mod.rs:37-51, 64-74. *)
Definition ticks_add (a b : ticks) : ticks := sat_i32 (a + b).
Definition ticks_sub (a b : ticks) : ticks := sat_i32 (a - b).

(** time/mod.rs:85-112 [TimeScale(i32)]. *)
Definition denominator_as_log2 : Z := 10.
Definition denominator : Z := Z.shiftl 1 denominator_as_log2.
Definition timescale_default : Z := denominator.

(** time/mod.rs:53-62 [Mul<TimeScale>]: i64 product, arithmetic shift, [as i32].
    The i64 product of two i32 values cannot overflow. *)
Definition ticks_mul (t : ticks) (scale : Z) : ticks :=
  wrap_i32 (Z.shiftr (t * scale) denominator_as_log2).

(** time/mod.rs:144-151 [TimeWarp], default offset 0 and default scale. *)
Record timewarp : Type := mkWarp { tw_offset : ticks; tw_scale : Z }.
Definition timewarp_default : timewarp := mkWarp 0 timescale_default.

(** time/mod.rs:155-158 [TimeWarp::apply]; [ChannelTime] is its ticks.
    [ChannelTime::warp] (122-124) is the same function. *)
Definition warp_apply (w : timewarp) (parent : ticks) : ticks :=
  ticks_mul (ticks_sub parent (tw_offset w)) (tw_scale w).
