(** C39: the Unity demo mirrors what Unity shows. *)
From Verif Require Import UnityProofs Macro.
Import Coq.Strings.String.StringSyntax.
Open Scope string_scope.
Open Scope list_scope.
Open Scope nat_scope.

(** The contract of the model is the one [#[states]] generates from the declaration
    in demos/unity_states/rust/src/lib.rs:57-70. *)
Theorem C39_ball_is_the_declared_struct :
  exists g, expand (DNamed [("pos_x", TPrim TF32); ("pos_y", TPrim TF32); ("pos_z", TPrim TF32);
      ("euler_x", TPrim TI16); ("euler_y", TPrim TI16); ("euler_z", TPrim TI16);
      ("scale_x", TPrim TF32); ("scale_y", TPrim TF32); ("scale_z", TPrim TF32); ("color", TPrim TU64)]) = Ok g /\
    Ball = generated_contract (mkCid "Ball" (0%N, 0%N, 0%N)) g gen_empty.
Proof. eexists. split; reflexivity. Qed.
Print Assumptions C39_ball_is_the_declared_struct.

(** What the platform should hold for a field after the frames [us]: what the last
    frame able to report it reported, or zero. *)
Definition initially (f : field) : dynprop :=
  match f with
  | EulerX | EulerY | EulerZ => PPrim (VI16 0)
  | ColorF => PPrim (VU64 0)
  | _ => PPrim (VF32 0)
  end.
Definition latest (wild : spec_float -> Z) (us : list unity) (f : field) : dynprop :=
  fold_left (fun v u => match unity_get wild u f with Some v' => v' | None => v end) us (initially f).

(** Whatever Unity shows, in any number of frames, start-up and synchronisation
    never panic and every field of the platform's ball holds what Unity reported
    last: no field disturbs another. *)
Theorem C39_platform_mirrors_unity wild us :
  exists p0 p, awake = Ok p0 /\ updates wild true p0 us = Ok p /\
    forall f, platform_get p f = Ok (latest wild us f).
Proof.
  destruct awake_ok as (p0 & E0 & P0 & _). destruct (updates_ok wild us p0 _ P0) as (p & E & P & _).
  exists p0, p. split; [exact E0|]. split; [exact E|]. intros f. rewrite (get_ok _ _ f P). f_equal.
  assert (G : forall us vs, fold_left (fun vs u => assign_vals wild vs u fields) us vs f =
            fold_left (fun v u => match unity_get wild u f with Some v' => v' | None => v end) us (vs f)).
  { clear. intros us. induction us as [|u us IH]; intros vs; cbn [fold_left]; auto. rewrite IH, assign_vals_fields. reflexivity. }
  rewrite G. unfold latest. f_equal. destruct f; reflexivity.
Qed.
Print Assumptions C39_platform_mirrors_unity.

(** So right after a frame, every field Unity could report is equal on both sides. *)
Theorem C39_after_a_frame_both_sides_agree wild us u :
  exists p0 p, awake = Ok p0 /\ updates wild true p0 (us ++ [u]) = Ok p /\
    forall f v, unity_get wild u f = Some v -> platform_get p f = Ok v.
Proof.
  destruct (C39_platform_mirrors_unity wild (us ++ [u])) as (p0 & p & E0 & E & H).
  exists p0, p. split; [exact E0|]. split; [exact E|]. intros f v Hv. rewrite H. unfold latest.
  rewrite fold_left_app. cbn. rewrite Hv. reflexivity.
Qed.
Print Assumptions C39_after_a_frame_both_sides_agree.

(** Field by field: after a frame showing position (px, py, pz), angles (ex, ey, ez),
    scale (sx, sy, sz) and colour (r, g, b, a), the ball's ten fields in the declared
    order are these. *)
Theorem C39_field_by_field wild us px py pz ex ey ez sx sy sz r g b a :
  exists p0 p, awake = Ok p0 /\
    updates wild true p0 (us ++ [mkUnity (px, py, pz) (ex, ey, ez) (sx, sy, sz) (Some (r, g, b, a))]) = Ok p /\
    map (platform_get p) [PosX; PosY; PosZ; EulerX; EulerY; EulerZ; ScaleX; ScaleY; ScaleZ; ColorF] =
    [Ok (PPrim (VF32 px)); Ok (PPrim (VF32 py)); Ok (PPrim (VF32 pz));
     Ok (PPrim (VI16 (cast_short wild ex))); Ok (PPrim (VI16 (cast_short wild ey))); Ok (PPrim (VI16 (cast_short wild ez)));
     Ok (PPrim (VF32 sx)); Ok (PPrim (VF32 sy)); Ok (PPrim (VF32 sz));
     Ok (PPrim (VU64 (pack (scale_channel wild r) (scale_channel wild g) (scale_channel wild b) (scale_channel wild a))))].
Proof.
  edestruct (C39_after_a_frame_both_sides_agree wild us) as (p0 & p & E0 & E & H).
  exists p0, p. split; [exact E0|]. split; [exact E|]. cbn [map].
  repeat (apply f_equal2; [apply H; reflexivity|]). reflexivity.
Qed.
Print Assumptions C39_field_by_field.

(** A renderer without material spoils the colour only: the other nine fields of
    that frame are still synchronised and the colour keeps its last value. *)
Theorem C39_missing_colour_spoils_only_the_colour wild us u : un_color u = None ->
  exists p0 p1 p2, awake = Ok p0 /\ updates wild true p0 us = Ok p1 /\ updates wild true p0 (us ++ [u]) = Ok p2 /\
    platform_get p2 ColorF = platform_get p1 ColorF /\
    forall f, f <> ColorF -> exists v, unity_get wild u f = Some v /\ platform_get p2 f = Ok v.
Proof.
  intros N. destruct (C39_platform_mirrors_unity wild us) as (p0 & p1 & E0 & E1 & H1).
  destruct (C39_platform_mirrors_unity wild (us ++ [u])) as (p0' & p2 & E0' & E2 & H2).
  assert (p0' = p0) by congruence. subst p0'.
  exists p0, p1, p2. split; [exact E0|]. split; [exact E1|]. split; [exact E2|].
  assert (L : forall f, latest wild (us ++ [u]) f = match unity_get wild u f with Some v' => v' | None => latest wild us f end).
  { intros f. unfold latest. rewrite fold_left_app. reflexivity. }
  split.
  - rewrite H1, H2, L. unfold unity_get. rewrite N. destruct (un_pos u) as [[? ?] ?], (un_euler u) as [[? ?] ?], (un_scale u) as [[? ?] ?]. reflexivity.
  - intros f Hf. rewrite H2, L. unfold unity_get. destruct (un_pos u) as [[? ?] ?], (un_euler u) as [[? ?] ?], (un_scale u) as [[? ?] ?].
    destruct f; try congruence; eexists; split; reflexivity.
Qed.
Print Assumptions C39_missing_colour_spoils_only_the_colour.

(** A synchroniser whose sources are not assigned changes nothing. *)
Theorem C39_not_ready_changes_nothing wild p us : updates wild false p us = Ok p.
Proof. induction us as [|u us IH]; cbn; auto. Qed.
Print Assumptions C39_not_ready_changes_nothing.

(** The handles kept by the platform are the bindings of the contract's own fields
    to its one object, before and after any frames. *)
Theorem C39_handles_are_the_bound_fields wild us :
  exists p0 p, awake = Ok p0 /\ updates wild true p0 us = Ok p /\
    forall f, exists id, ci_state_id (pf_contract p) (field_id f) = Some id /\
      bind_state (pf_baseline p) id (pf_object p) = Ok (pf_handle p f).
Proof.
  destruct awake_ok as (p0 & E0 & P0 & T0). destruct (updates_ok wild us p0 _ P0) as (p & E & P & C & _).
  exists p0, p. split; [exact E0|]. split; [exact E|]. intros f.
  exists (mkPid (field_type f) (field_id f) (ci_handle (pf_contract p))). split.
  - unfold ci_state_id. rewrite C, T0. destruct f; reflexivity.
  - apply c08_bind_state_iff. eexists. split; [exact (pi_obj _ _ P)|]. cbn [o_contract o_states pid_contract pid_idx].
    split; [reflexivity|]. destruct f; reflexivity.
Qed.
Print Assumptions C39_handles_are_the_bound_fields.

Open Scope Z_scope.
(** An angle [+-m * 2^e] that fits in 16 bits is stored as the whole degrees, rounded
    towards zero and with its sign, whatever the language leaves unspecified. *)
Theorem C39_angles_are_stored_in_whole_degrees wild bits s m e :
  f32_decode bits = S754_finite s m e -> ~ ge_int (Zpos m) e (if s then 32769 else 32768) ->
  exists z, cast_short wild bits = (if s then - z else z) /\
    0 <= z <= (if s then 32768 else 32767) /\ ge_int (Zpos m) e z /\ ~ ge_int (Zpos m) e (z + 1).
Proof.
  intros D Hlt. unfold cast_short, cast_int. rewrite D.
  destruct (f32_trunc (S754_finite false m e)) as [z|] eqn:Z; [|discriminate].
  destruct (trunc_bounds m e z Z) as [G1 G2].
  assert (Zs : f32_trunc (S754_finite s m e) = Some (if s then - z else z)).
  { unfold f32_trunc in *. injection Z as <-. destruct s; reflexivity. }
  assert (Hz : 0 <= z).
  { assert (Hz : z = if 0 <=? e then Zpos m * 2 ^ e else Zpos m / 2 ^ (- e)) by (unfold f32_trunc in Z; congruence).
    subst z. clear. destruct (Z.leb_spec 0 e).
    - pose proof (pow2_pos e ltac:(lia)). nia.
    - apply Z.div_pos; [lia|apply pow2_pos; lia]. }
  assert (Hh : z <= if s then 32768 else 32767).
  { apply Z.nlt_ge. intros L. apply Hlt. unfold ge_int in *.
    pose proof (pow2_pos (Z.max 0 (- e)) ltac:(lia)). destruct s; nia. }
  exists z. rewrite Zs.
  assert (C : ((-32768 <=? (if s then - z else z)) && ((if s then - z else z) <=? 32767)) = true).
  { apply andb_true_iff; split; apply Z.leb_le; destruct s; lia. }
  rewrite C. auto.
Qed.
Print Assumptions C39_angles_are_stored_in_whole_degrees.

(** A colour channel [m * 2^e] in (0, 1] is stored as a 16-bit number between the
    two integers around [m * 2^e * 65535] (f32 rounding may reach the upper one). *)
Theorem C39_colour_channels_are_scaled_to_16_bits wild bits m e :
  f32_decode bits = S754_finite false m e -> le_int (Zpos m) e 1 ->
  let z := scale_channel wild bits in
  0 <= z <= 65535 /\
  (forall n, 0 <= n <= 65535 -> ge_int (Zpos m * 65535) e n -> n <= z) /\
  (forall n, 0 <= n <= 65535 -> le_int (Zpos m * 65535) e n -> z <= n).
Proof.
  intros D H1. cbn zeta. unfold scale_channel, cast_int. rewrite D.
  set (r := SFmul 24 128 (S754_finite false m e) (int_as_f32 65535)).
  assert (Sg : sf_sign r = Some false).
  { unfold r. destruct (int_as_f32_exact 65535 ltac:(lia)) as (md & ed & -> & _). cbn [SFmul xorb]. apply round_sign. }
  assert (B : forall n, 0 <= n <= 65535 ->
            (le_int (Zpos m * 65535) e n -> f32_as_u32 r <= n) /\ (ge_int (Zpos m * 65535) e n -> n <= f32_as_u32 r)).
  { intros n Hn. apply (mul_bounds m e 65535 n); lia. }
  assert (Hu : f32_as_u32 r <= 65535).
  { apply (B 65535); [lia|]. unfold le_int in *. lia. }
  rewrite (trunc_u32 r Sg) by (unfold u32_max; lia).
  pose proof (as_u32_range r) as Hr.
  assert (C : ((0 <=? f32_as_u32 r) && (f32_as_u32 r <=? 65535)) = true) by (apply andb_true_iff; split; apply Z.leb_le; lia).
  rewrite C. split; [lia|]. split; intros n Hn Hle; apply (B n Hn); exact Hle.
Qed.
Print Assumptions C39_colour_channels_are_scaled_to_16_bits.

(** Black and full intensity are exact. *)
Theorem C39_extreme_channels_are_exact wild :
  scale_channel wild 0 = 0 /\ scale_channel wild 0x80000000 = 0 /\ scale_channel wild 0x3f800000 = 65535.
Proof. repeat split. Qed.
Print Assumptions C39_extreme_channels_are_exact.

(** [BallContract.ObjectRemove] takes a contract's handle and no object, and always
    panics; before that it has removed whatever object has the same raw index as the
    contract, and only that object. *)
Theorem C39_object_remove_always_panics_refuted b h : reach b ->
  exists b', ball_object_remove b h = (Panic, b') /\ obj_at b' h = None /\
    forall o, o <> h -> obj_at b' o = obj_at b o.
Proof.
  intros R. unfold ball_object_remove. destruct (object_remove b Ball h) as [r b'] eqn:E.
  destruct (c10_remove_exact _ _ _ _ _ R E) as [H0 H1]. destruct (obj_at b h) as [ob|] eqn:Eo.
  - destruct (H1 ob eq_refl) as (-> & Hn & Ho & _). exists b'. auto.
  - destruct (H0 eq_refl) as (-> & ->). exists b. auto.
Qed.
Print Assumptions C39_object_remove_always_panics_refuted.
(** With two balls of one contract it always hits the first. *)
Definition two_balls : outcome (contract_inst * index * index * baseline) :=
  match awake with
  | Ok p =>
      match ball_object_create (pf_baseline p) (ci_handle (pf_contract p)) zeros with
      | Ok (o2, b) => Ok (pf_contract p, pf_object p, o2, b)
      | _ => Panic
      end
  | _ => Panic
  end.
Example C39_object_remove_example :
  match two_balls with
  | Ok (c, o1, o2, b) =>
      let b' := snd (ball_object_remove b (ci_handle c)) in
      contains (b_objects b) o1 = true /\ contains (b_objects b) o2 = true /\
      contains (b_objects b') o1 = false /\ contains (b_objects b') o2 = true
  | _ => False
  end.
Proof. vm_compute. auto. Qed.

(** A concrete run: two frames, the second without a material. *)
Definition c39_u1 : unity :=   (* at (1, 2, -1), turned 90.5 degrees about y, scale 1, opaque red *)
  mkUnity (0x3f800000, 0x40000000, 0xbf800000) (0, 0x42b50000, 0) (0x3f800000, 0x3f800000, 0x3f800000)
          (Some (0x3f800000, 0, 0, 0x3f800000)).
Definition c39_u2 : unity := mkUnity (0, 0, 0) (0x43b38000, 0, 0) (0x3f800000, 0x3f800000, 0x3f800000) None.
Example C39_example :
  let w := fun _ : spec_float => 7 in
  latest w [c39_u1; c39_u2] ColorF = PPrim (VU64 0xffffffffffffffff) /\
  latest w [c39_u1; c39_u2] EulerX = PPrim (VI16 359) /\
  latest w [c39_u1] EulerY = PPrim (VI16 90) /\
  un_color c39_u2 = None /\
  f32_decode 0x42b50000 = S754_finite false 11862016 (-17) /\ ~ ge_int 11862016 (-17) 32768 /\
  f32_decode 0x3f000000 = S754_finite false 8388608 (-24) /\ le_int 8388608 (-24) 1 /\
  scale_channel w 0x3f000000 = 32767.
Proof. vm_compute. repeat split; auto; discriminate. Qed.

Example C39_angle_examples :
  let w := fun _ : spec_float => 7 in
  cast_short w 0xc2b50000 = -90 /\ f32_decode 0xc2b50000 = S754_finite true 11862016 (-17) /\ ~ ge_int 11862016 (-17) 32769 /\
  cast_short w 0xc7000000 = -32768 /\ cast_short w 0x47000000 = 7.
Proof. vm_compute. repeat split; auto; discriminate. Qed.
