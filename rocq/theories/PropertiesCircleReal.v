(** C38, in numbers: where the circles start and how far they move. *)
From Verif Require Import PropertiesCircle FloatSpec CircleReal FloatReal.
From Verif Require Import CircleGame CircleSpec CircleProofs.
From Coq Require Import ZArith QArith Qreals Qabs Reals Lia Lra List.
From Flocq Require Import Core.
Import ListNotations.
Open Scope nat_scope.

(** ** Specification *)

(** What [rand::random::<f32>()] yields (rand 0.8.5): a multiple of 2^-24 in
    [0, 1). *)
Definition random_f32 (r : Z) : Prop := exists n : Z, (0 <= n < 16777216)%Z /\ f32_is r (n # 16777216).
Definition randoms_ok (ss : list system) : Prop :=
  Forall (fun s => match s with
                   | Walk vs => Forall (fun v => random_f32 (fst (snd v)) /\ random_f32 (snd (snd v))) vs
                   | Sync _ => True
                   end) ss.
(** How often circle [k] is moved. *)
Definition walks (ss : list system) : list nat :=
  flat_map (fun s => match s with Walk vs => map fst vs | Sync _ => [] end) ss.
Definition moves (k : nat) (ss : list system) : nat := count_occ Nat.eq_dec (walks ss) k.

(** ** Proofs *)
Lemma random_real r : random_f32 r <-> exists n, (0 <= n < 16777216)%Z /\ bit32 r (IZR n * bpow radix2 (-24)).
Proof.
  assert (E : forall n, Q2R (n # 16777216) = (IZR n * bpow radix2 (-24))%R).
  { intros n. unfold Q2R. cbn [Qnum Qden]. replace (bpow radix2 (-24)) with (/ 16777216)%R by (cbn; lra). reflexivity. }
  split; intros [n [H1 H2]]; exists n; (split; [exact H1|]).
  - apply is_real in H2. rewrite E in H2. auto.
  - apply is_real. rewrite E. auto.
Qed.

(** The grid: 50 apart, centred on the origin, exactly, for every grid of at most
    671088 by 671088 circles (beyond, coordinates need more than 24 bits). *)
Theorem C38_grid_positions_are_exact size : (Z.of_nat size <= 671088)%Z ->
  exists g, plays size [] = Ok g /\ length (gm_entities g) = size * size /\
    forall k e, nth_error (gm_entities g) k = Some e -> exists x y,
      fork_reads g (en_x e) x /\ fork_reads g (en_y e) y /\ en_transform e = (x, y) /\
      f32_is x (inject_Z (50 * Z.of_nat (k / size) - 25 * Z.of_nat size)) /\
      f32_is y (inject_Z (50 * Z.of_nat (k mod size) - 25 * Z.of_nat size)).
Proof.
  intros Hs. destruct (C38_every_schedule_moves_each_circle_alone size [] (Forall_nil _)) as [g [E [N H]]].
  exists g. split; [exact E|]. split; [exact N|]. intros k e He. specialize (H k e He).
  cbn [map] in H. unfold circle_after in H. cbn [fold_left] in H. unfold circle_start in H. cbv iota beta in H.
  destruct H as [H1 [H2 H3]].
  assert (Hk : k < size * size) by (rewrite <- N; apply nth_error_Some; congruence).
  assert (Hz : size <> 0) by (intros ->; lia).
  assert (K1 : k / size <= size). { apply Nat.lt_le_incl, Nat.div_lt_upper_bound; lia. }
  assert (K2 : k mod size <= size). { apply Nat.lt_le_incl, Nat.mod_upper_bound; lia. }
  exists (grid_coord size (k / size)), (grid_coord size (k mod size)).
  split; [exact H1|]. split; [exact H2|]. split; [exact H3|]. split; apply is_real; rewrite Q2R_Z.
  - replace (50 * Z.of_nat (k / size) - 25 * Z.of_nat size)%Z with (25 * (2 * Z.of_nat (k / size) - Z.of_nat size))%Z by lia.
    apply grid_real; auto.
  - replace (50 * Z.of_nat (k mod size) - 25 * Z.of_nat size)%Z with (25 * (2 * Z.of_nat (k mod size) - Z.of_nat size))%Z by lia.
    apply grid_real; auto.
Qed.
Print Assumptions C38_grid_positions_are_exact.

(** One visit moves a coordinate to the f32 nearest to its exact place, [2 rand - 1]
    further: [rand - 0.5] and the doubling lose nothing, and no position, however
    far out, overflows. *)
Theorem C38_each_move_is_rounded_once size ss k rx ry nx ny :
  legal size ss -> k < size * size ->
  (0 <= nx < 16777216)%Z -> (0 <= ny < 16777216)%Z -> f32_is rx (nx # 16777216) -> f32_is ry (ny # 16777216) ->
  exists g g' e e' x y x' y',
    plays size ss = Ok g /\ plays size (ss ++ [Walk [(k, (rx, ry))]]) = Ok g' /\
    nth_error (gm_entities g) k = Some e /\ nth_error (gm_entities g') k = Some e' /\
    fork_reads g (en_x e) x /\ fork_reads g (en_y e) y /\
    fork_reads g' (en_x e') x' /\ fork_reads g' (en_y e') y' /\
    (forall q, f32_is x q -> f32_nearest x' (q + 2 * (nx # 16777216) - 1)) /\
    (forall q, f32_is y q -> f32_nearest y' (q + 2 * (ny # 16777216) - 1)).
Proof.
  intros L Hk Hnx Hny Hrx Hry.
  assert (L' : legal size (ss ++ [Walk [(k, (rx, ry))]])).
  { apply Forall_app. split; [exact L|]. constructor; [|constructor]. cbn. constructor; auto. }
  destruct (C38_every_schedule_moves_each_circle_alone size _ L) as (g & E & N & H).
  destruct (C38_every_schedule_moves_each_circle_alone size _ L') as (g' & E' & N' & H').
  destruct (nth_error (gm_entities g) k) as [e|] eqn:He. 2:{ apply nth_error_None in He. lia. }
  destruct (nth_error (gm_entities g') k) as [e'|] eqn:He'. 2:{ apply nth_error_None in He'. lia. }
  specialize (H k e He). specialize (H' k e' He').
  unfold circle_after in H, H'. rewrite map_app, fold_left_app in H'. cbn [map fold_left as_frame frame_on] in H'.
  destruct (fold_left (frame_on k) (map as_frame ss) (circle_start size k, circle_start size k)) as [[x y] t].
  cbn [fst snd fold_left] in H'. rewrite Nat.eqb_refl in H'.
  destruct H as (H1 & H2 & _). destruct H' as (H1' & H2' & _).
  exists g, g', e, e', x, y, (step_coord x rx), (step_coord y ry).
  do 8 (split; [assumption|]).
  assert (G : forall v r n q, (0 <= n < 16777216)%Z -> f32_is r (n # 16777216) -> f32_is v q ->
            f32_nearest (step_coord v r) (q + 2 * (n # 16777216) - 1)).
  { intros v r n q Hn Hr Hq. apply nearest_real.
    assert (Hr' : random_f32 r) by (exists n; auto).
    assert (Hr2 : bit32 r (IZR n * bpow radix2 (-24))).
    { apply is_real in Hr. unfold Q2R in Hr. cbn [Qnum Qden] in Hr. replace (bpow radix2 (-24)) with (/ 16777216)%R by (cbn; lra). exact Hr. }
    apply is_real in Hq.
    assert (Ev : Q2R (q + 2 * (n # 16777216) - 1) = (Q2R q + IZR (2 * n - 16777216) * bpow radix2 (-24))%R).
    { rewrite Q2R_minus, Q2R_plus, Q2R_mult, minus_IZR, mult_IZR. unfold Q2R at 2 3 4. cbn [Qnum Qden].
      replace (bpow radix2 (-24)) with (/ 16777216)%R by (cbn; lra). lra. }
    rewrite Ev. apply (step_finite v r (Q2R q) n); auto. }
  split; intros q Hq; apply G; auto.
Qed.
Print Assumptions C38_each_move_is_rounded_once.

Lemma walk_bound k B : forall vs (p : Z * Z),
  Forall (fun v : nat * (Z * Z) => random_f32 (fst (snd v)) /\ random_f32 (snd (snd v))) vs ->
  (0 <= B <= 16777216)%Z ->
  (exists a, bit32 (fst p) a /\ (Rabs a <= IZR B)%R) ->
  (exists a, bit32 (snd p) a /\ (Rabs a <= IZR B)%R) ->
  let p' := fold_left (fun p v => if Nat.eqb (fst v) k
                             then (step_coord (fst p) (fst (snd v)), step_coord (snd p) (snd (snd v)))
                             else p) vs p in
  let B' := Z.min 16777216 (B + Z.of_nat (count_occ Nat.eq_dec (map fst vs) k)) in
  (exists a, bit32 (fst p') a /\ (Rabs a <= IZR B')%R) /\
  (exists a, bit32 (snd p') a /\ (Rabs a <= IZR B')%R).
Proof.
  revert B. intros B vs. revert B. induction vs as [|[i [rx ry]] vs IH]; intros B p F HB Hx Hy.
  - cbn [fold_left map count_occ Z.of_nat]. cbv zeta. replace (Z.min 16777216 (B + 0)) with B by lia. auto.
  - apply Forall_cons_iff in F. destruct F as [[F1 F2] F]. cbn [fst snd] in F1, F2.
    cbn [fold_left map fst snd count_occ].
    destruct (Nat.eqb_spec i k) as [Ei|Ei].
    + destruct (Nat.eq_dec i k) as [_|]; [|contradiction].
      apply random_real in F1, F2. destruct F1 as [nx [N1 R1]]. destruct F2 as [ny [N2 R2]].
      destruct Hx as [a [A1 A2]]. destruct Hy as [b [B1 B2]].
      destruct (step_real _ _ _ _ B A1 R1 N1 HB A2) as [X1 X2].
      destruct (step_real _ _ _ _ B B1 R2 N2 HB B2) as [Y1 Y2].
      specialize (IH (Z.min 16777216 (B + 1)) (step_coord (fst p) rx, step_coord (snd p) ry) F ltac:(lia)).
      cbn [fst snd] in IH. cbv zeta in IH |- *.
      replace (Z.min 16777216 (B + Z.of_nat (S (count_occ Nat.eq_dec (map fst vs) k))))
        with (Z.min 16777216 (Z.min 16777216 (B + 1) + Z.of_nat (count_occ Nat.eq_dec (map fst vs) k))) by lia.
      apply IH; eauto.
    + destruct (Nat.eq_dec i k) as [|_]; [contradiction|]. apply IH; auto.
Qed.

Lemma weaken_bound x B B' : (B <= B')%Z ->
  (exists a, bit32 x a /\ (Rabs a <= IZR B)%R) -> exists a, bit32 x a /\ (Rabs a <= IZR B')%R.
Proof. intros H [a [H1 H2]]. exists a. split; auto. apply IZR_le in H. lra. Qed.

Lemma frames_bound k : forall ss B p t,
  randoms_ok ss -> (0 <= B <= 16777216)%Z ->
  (exists a, bit32 (fst p) a /\ (Rabs a <= IZR B)%R) ->
  (exists a, bit32 (snd p) a /\ (Rabs a <= IZR B)%R) ->
  (exists a, bit32 (fst t) a /\ (Rabs a <= IZR B)%R) ->
  (exists a, bit32 (snd t) a /\ (Rabs a <= IZR B)%R) ->
  let '(p', t') := fold_left (frame_on k) (map as_frame ss) (p, t) in
  let B' := Z.min 16777216 (B + Z.of_nat (moves k ss)) in
  (exists a, bit32 (fst p') a /\ (Rabs a <= IZR B')%R) /\
  (exists a, bit32 (snd p') a /\ (Rabs a <= IZR B')%R) /\
  (exists a, bit32 (fst t') a /\ (Rabs a <= IZR B')%R) /\
  (exists a, bit32 (snd t') a /\ (Rabs a <= IZR B')%R).
Proof.
  induction ss as [|s ss IH]; intros B p t R HB H1 H2 H3 H4.
  - cbn [map fold_left]. unfold moves, walks. cbn [flat_map count_occ Z.of_nat]. cbv zeta.
    replace (Z.min 16777216 (B + 0)) with B by lia. auto.
  - apply Forall_cons_iff in R. destruct R as [R0 R]. cbn [map fold_left].
    destruct s as [vs|vs]; cbn [as_frame frame_on fst snd].
    + destruct (walk_bound k B vs p R0 HB H1 H2) as [G1 G2]. cbv zeta in G1, G2.
      set (p1 := fold_left _ vs p) in *.
      set (c := count_occ Nat.eq_dec (map fst vs) k) in *.
      specialize (IH (Z.min 16777216 (B + Z.of_nat c)) p1 t R ltac:(lia) G1 G2
        (weaken_bound (fst t) B (Z.min 16777216 (B + Z.of_nat c)) ltac:(lia) H3)
        (weaken_bound (snd t) B (Z.min 16777216 (B + Z.of_nat c)) ltac:(lia) H4)).
      destruct (fold_left (frame_on k) (map as_frame ss) (p1, t)) as [p' t'].
      assert (Ev : moves k (Walk vs :: ss) = c + moves k ss).
      { unfold moves, walks. cbn [flat_map]. rewrite count_occ_app. reflexivity. }
      rewrite Ev. cbv zeta in IH |- *.
      replace (Z.min 16777216 (B + Z.of_nat (c + moves k ss)))
        with (Z.min 16777216 (Z.min 16777216 (B + Z.of_nat c) + Z.of_nat (moves k ss))) by lia.
      exact IH.
    + change (moves k (Sync vs :: ss)) with (moves k ss).
      destruct (existsb (Nat.eqb k) vs); apply IH; auto.
Qed.

Lemma bounded_q x B : (exists a, bit32 x a /\ (Rabs a <= IZR B)%R) ->
  exists q, f32_is x q /\ (Qabs q <= inject_Z B)%Q.
Proof.
  intros [a [H1 H2]]. destruct (real_is _ _ H1) as [q [Hq E]]. exists q. split; auto.
  apply Rle_Qle. rewrite Q2R_abs, Q2R_Z, E. auto.
Qed.

(** Whatever the schedule and the random numbers, every stored and every drawn
    coordinate is a finite number (never an infinity or NaN), at most [25 size]
    plus the number of the circle's moves away from the centre, and never more
    than 2^24, where the walk gets stuck. *)
Theorem C38_circles_stay_finite_and_near size ss :
  (Z.of_nat size <= 671088)%Z -> legal size ss -> randoms_ok ss ->
  exists g, plays size ss = Ok g /\
    forall k e, nth_error (gm_entities g) k = Some e -> exists x y qx qy qdx qdy,
      fork_reads g (en_x e) x /\ fork_reads g (en_y e) y /\
      f32_is x qx /\ f32_is y qy /\ f32_is (fst (en_transform e)) qdx /\ f32_is (snd (en_transform e)) qdy /\
      forall q, In q [qx; qy; qdx; qdy] ->
        (Qabs q <= inject_Z (Z.min 16777216 (25 * Z.of_nat size + Z.of_nat (moves k ss))))%Q.
Proof.
  intros Hs L R. destruct (C38_every_schedule_moves_each_circle_alone size ss L) as (g & E & N & H).
  exists g. split; [exact E|]. intros k e He. specialize (H k e He).
  assert (Hk : k < size * size) by (rewrite <- N; apply nth_error_Some; congruence).
  assert (Hz : size <> 0) by (intros ->; lia).
  assert (Start : forall i, i <= size -> exists a, bit32 (grid_coord size i) a /\ (Rabs a <= IZR (25 * Z.of_nat size))%R).
  { intros i Hi. eexists. split; [apply grid_real; auto|]. rewrite <- abs_IZR. apply IZR_le. lia. }
  assert (K1 : k / size <= size). { apply Nat.lt_le_incl, Nat.div_lt_upper_bound; lia. }
  assert (K2 : k mod size <= size). { apply Nat.lt_le_incl, Nat.mod_upper_bound; lia. }
  pose proof (frames_bound k ss (25 * Z.of_nat size) (circle_start size k) (circle_start size k) R ltac:(lia)
    (Start _ K1) (Start _ K2) (Start _ K1) (Start _ K2)) as F.
  unfold circle_after in H.
  destruct (fold_left (frame_on k) (map as_frame ss) (circle_start size k, circle_start size k)) as [[x y] t].
  cbv zeta in F. cbn [fst snd] in F. destruct F as (F1 & F2 & F3 & F4). destruct H as (H1 & H2 & ->).
  apply bounded_q in F1. apply bounded_q in F2. apply bounded_q in F3. apply bounded_q in F4.
  destruct F1 as [q1 [A1 B1]]. destruct F2 as [q2 [A2 B2]]. destruct F3 as [q3 [A3 B3]]. destruct F4 as [q4 [A4 B4]].
  exists x, y, q1, q2, q3, q4. do 6 (split; [assumption|]).
  intros q [<-|[<-|[<-|[<-|[]]]]]; assumption.
Qed.
Print Assumptions C38_circles_stay_finite_and_near.

(** The game of [C38_example], with random numbers below 1. *)
Definition c38_rs : list system :=
  [Walk [(1, (0x3f7fffff, 0x3f000000)%Z); (0, (0x3f7fffff, 0)%Z)]; Sync [3; 1]; Walk [(1, (0, 0x3e800000)%Z)]].
Ltac fis := vm_compute; repeat split; reflexivity || discriminate.
Example C38_real_example :
  legal 2 c38_rs /\ randoms_ok c38_rs /\ moves 1 c38_rs = 2 /\
  f32_is 0x3f7fffff (16777215 # 16777216) /\ f32_is (grid_coord 10 3) (inject_Z (-100)) /\
  f32_is (fst (fst (circle_after 2 1 (map as_frame c38_rs)))) (inject_Z (-50)).
Proof.
  assert (R : forall r n, (0 <= n < 16777216)%Z -> f32_is r (n # 16777216) -> random_f32 r) by (intros r n H1 H2; exists n; auto).
  assert (R1 : random_f32 0x3f7fffff) by (apply (R _ 16777215%Z); [lia|fis]).
  assert (R2 : random_f32 0x3f000000) by (apply (R _ 8388608%Z); [lia|fis]).
  assert (R3 : random_f32 0) by (apply (R _ 0%Z); [lia|fis]).
  assert (R4 : random_f32 0x3e800000) by (apply (R _ 4194304%Z); [lia|fis]).
  split; [repeat constructor|]. split.
  { repeat (apply Forall_cons || apply Forall_nil); cbn [fst snd]; auto. }
  split; [reflexivity|]. split; [|split]; fis.
Qed.
