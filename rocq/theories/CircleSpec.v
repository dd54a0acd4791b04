(** Specification of the circle game, independent of the engine: every circle is
    on its own, with a position and the position it is drawn at.  A frame is any
    list of visits.  Numbers are f32 bit patterns. *)
From Verif Require Export FloatBits.
From Coq Require Import List.
Import ListNotations.
Open Scope nat_scope.

(** 0.5, 2.0 and 50.0 as f32 bit patterns (see [circle_constants]). *)
Definition half : Z := 0x3f000000.
Definition two : Z := 0x40000000.
Definition fifty : Z := 0x42480000.
(** 0.5 = 2^23 * 2^-24, 2 = 2^23 * 2^-22, 50 = 13107200 * 2^-18. *)
Lemma circle_constants :
  f32_decode half = S754_finite false 8388608 (-24) /\
  f32_decode two = S754_finite false 8388608 (-22) /\
  f32_decode fifty = S754_finite false 13107200 (-18).
Proof. vm_compute. auto. Qed.

(** What one frame does: walk the listed circles (each with two random numbers),
    or copy the listed circles' positions to the screen. *)
Inductive frame : Type :=
| FWalk (visits : list (nat * (Z * Z)))
| FSync (visits : list nat).

(** Circle [k]'s x (or y) after one random step: [v + (rand - 0.5) * 2]. *)
Definition step_coord (v rand : Z) : Z := f32_add v (f32_mul (f32_sub rand half) two).

(** (position, drawn position) of circle [k] across one frame. *)
Definition frame_on (k : nat) (s : (Z * Z) * (Z * Z)) (f : frame) : (Z * Z) * (Z * Z) :=
  match f with
  | FWalk vs =>
      (fold_left (fun p v => if Nat.eqb (fst v) k
                             then (step_coord (fst p) (fst (snd v)), step_coord (snd p) (snd (snd v)))
                             else p) vs (fst s), snd s)
  | FSync vs => (fst s, if existsb (Nat.eqb k) vs then fst s else snd s)
  end.

(** The grid is centred on the origin, 50 units apart: [(i - size / 2) * 50]. *)
Definition grid_coord (size i : nat) : Z :=
  f32_mul (f32_sub (f32_of_nat i) (f32_div (f32_of_nat size) two)) fifty.
Definition circle_start (size k : nat) : Z * Z :=
  (grid_coord size (k / size), grid_coord size (k mod size)).
Definition circle_after (size k : nat) (fs : list frame) : (Z * Z) * (Z * Z) :=
  fold_left (frame_on k) fs (circle_start size k, circle_start size k).

(** Only existing circles are visited (a query yields only existing entities). *)
Definition visits_circles (n : nat) (f : frame) : Prop :=
  match f with
  | FWalk vs => Forall (fun v => fst v < n) vs
  | FSync vs => Forall (fun k => k < n) vs
  end.
