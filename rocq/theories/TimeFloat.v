(** The floating-point views of times and scales: client/rust/src/time/mod.rs.
    IEEE 754 arithmetic is Coq's [SpecFloat] (round to nearest even). *)
From Verif Require Export Time.
From Coq Require Export Floats.SpecFloat.
Open Scope Z_scope.

(** [z as f32], [z as f64] from an integer. *)
Definition as_f32 (z : Z) : spec_float := binary_normalize 24 128 z 0 false.
Definition as_f64 (z : Z) : spec_float := binary_normalize 53 1024 z 0 false.

(** time/mod.rs:33-35 [Ticks::as_secs_f32]: [(self.0 as f32) / 1024.0]. *)
Definition as_secs_f32 (t : ticks) : spec_float := SFdiv 24 128 (as_f32 t) (as_f32 1024).
(** time/mod.rs:97-99 [TimeScale::as_f32]. *)
Definition scale_as_f32 (s : Z) : spec_float := SFdiv 24 128 (as_f32 s) (as_f32 denominator).
(** time/mod.rs:100-102 [TimeScale::as_f64]. *)
Definition scale_as_f64 (s : Z) : spec_float := SFdiv 53 1024 (as_f64 s) (as_f64 denominator).
