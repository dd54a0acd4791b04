(** C38: the circle game demo. *)
From Verif Require Import CircleProofs Macro.
Import Coq.Strings.String.StringSyntax.
Open Scope string_scope.
Open Scope list_scope.
Open Scope nat_scope.

(** The contract of the model is the one [#[states]] generates from the declaration
    in demos/circle_game/src/circle.rs. *)
Theorem C38_circle_is_the_declared_struct :
  exists g, expand (DNamed [("x", TPrim TF32); ("y", TPrim TF32)]) = Ok g /\
    Circle = generated_contract (mkCid "teleportal.app-circle_game-Circle" (0%N, 0%N, 1%N)) g gen_empty.
Proof. eexists. split; reflexivity. Qed.
Print Assumptions C38_circle_is_the_declared_struct.

(** The game after start-up with a [size] by [size] grid and the systems [ss]. *)
Definition plays (size : nat) (ss : list system) : outcome game :=
  match configure with
  | Ok g0 => match setup size g0 with Ok g1 => run_systems g1 ss | r => r end
  | r => r
  end.
(** Bevy hands each system only entities that exist, in any order. *)
Definition legal (size : nat) (ss : list system) : Prop :=
  Forall (fun s => visits_circles (size * size) (as_frame s)) ss.
Definition fork_reads (g : game) (h : index) (v : Z) : Prop :=
  state_get (realm_baseline (gm_realm g) KFork) (TPrim TF32) h = Ok (PPrim (VF32 v)).

Lemma plays_inv size ss : legal size ss -> exists g ps, plays size ss = Ok g /\ ginv g ps /\
  length (gm_entities g) = size * size /\
  forall k, k < size * size -> exists p t, circle_after size k (map as_frame ss) = (p, t) /\
    nth_error ps k = Some p /\ nth_error (map en_transform (gm_entities g)) k = Some t.
Proof.
  intros L. unfold plays. destruct configure_ok as (g0 & E0 & N0 & G0). rewrite E0.
  destruct (spawn_all_ok size (grid size) g0 [] G0) as (g1 & E1 & G1 & T1).
  unfold setup. rewrite E1. cbn [app] in G1. rewrite N0 in T1. cbn [map app] in T1.
  set (ps := map (fun xy => (offset_and_scale size (fst xy), offset_and_scale size (snd xy))) (grid size)) in *.
  assert (Lp : length ps = size * size) by (unfold ps; rewrite map_length; apply grid_length).
  destruct (run_ok ss g1 ps G1) as (g & ps' & E & G & L' & C & H).
  { rewrite Lp. exact L. }
  exists g, ps'. split; [exact E|]. split; [exact G|]. split.
  { rewrite <- (gi_len _ _ G), L', Lp. reflexivity. }
  intros k Hk.
  assert (Hp : nth_error ps k = Some (circle_start size k)).
  { unfold ps. rewrite nth_error_map, (grid_nth size k Hk). reflexivity. }
  destruct (H k (circle_start size k) (circle_start size k) Hp) as (p & t & F & Hp' & Ht').
  { rewrite T1. exact Hp. }
  exists p, t. split; [|auto]. unfold circle_after. rewrite <- F. clear. generalize (circle_start size k, circle_start size k).
  induction ss as [|s ss IH]; intros a; cbn; auto.
Qed.

(** For every grid size and every schedule the game starts, no system ever panics,
    and every circle is exactly where its own visits put it, drawn where its own
    last synchronisation saw it: no circle disturbs another. *)
Theorem C38_every_schedule_moves_each_circle_alone size ss : legal size ss ->
  exists g, plays size ss = Ok g /\ length (gm_entities g) = size * size /\
    forall k e, nth_error (gm_entities g) k = Some e ->
      let '((x, y), drawn) := circle_after size k (map as_frame ss) in
      fork_reads g (en_x e) x /\ fork_reads g (en_y e) y /\ en_transform e = drawn.
Proof.
  intros L. destruct (plays_inv size ss L) as (g & ps & E & G & N & H).
  exists g. split; [exact E|]. split; [exact N|]. intros k e He.
  assert (Hk : k < size * size) by (rewrite <- N; apply nth_error_Some; congruence).
  destruct (H k Hk) as ([x y] & t & -> & Hp & Ht).
  destruct (nth_pairs (fun e => (F32t, en_x e)) (fun e => (F32t, en_y e)) _ _ _ He) as [Hx Hy].
  destruct (nth_pairs (fun p : Z * Z => PPrim (VF32 (fst p))) (fun p => PPrim (VF32 (snd p))) _ _ _ Hp) as [Vx Vy].
  destruct (table_get _ _ _ _ _ _ (gi_tab _ _ G) Hx) as (v & Hv & Gx & _).
  destruct (table_get _ _ _ _ _ _ (gi_tab _ _ G) Hy) as (w & Hw & Gy & _).
  unfold vals_of in Hv, Hw. rewrite Vx in Hv. rewrite Vy in Hw. injection Hv as <-. injection Hw as <-.
  split; [exact Gx|]. split; [exact Gy|].
  rewrite nth_error_map, He in Ht. cbn in Ht. congruence.
Qed.
Print Assumptions C38_every_schedule_moves_each_circle_alone.

(** The circles are distinct live objects of the fork, and binding the contract's
    fields to a circle's object gives back exactly the handles the game kept. *)
Theorem C38_every_circle_is_its_own_object size ss : legal size ss ->
  exists g, plays size ss = Ok g /\ NoDup (map en_obj (gm_entities g)) /\
    forall e, In e (gm_entities g) -> en_kind e = KFork /\
      exists x_id y_id, ci_state_id (gm_contract g) 0 = Some x_id /\ ci_state_id (gm_contract g) 1 = Some y_id /\
        bind_state (realm_baseline (gm_realm g) KFork) x_id (en_obj e) = Ok (en_x e) /\
        bind_state (realm_baseline (gm_realm g) KFork) y_id (en_obj e) = Ok (en_y e).
Proof.
  intros L. destruct (plays_inv size ss L) as (g & ps & E & G & N & H).
  exists g. split; [exact E|]. split; [exact (gi_nodup _ _ G)|]. intros e He.
  pose proof (gi_fork _ _ G) as Fk. pose proof (gi_obj _ _ G) as Fo. rewrite Forall_forall in Fk, Fo.
  split; [auto|].
  exists (mkPid F32t 0 (ci_handle (gm_contract g))), (mkPid F32t 1 (ci_handle (gm_contract g))).
  split; [unfold ci_state_id; rewrite (gi_ty _ _ G); reflexivity|].
  split; [unfold ci_state_id; rewrite (gi_ty _ _ G); reflexivity|].
  cbn [realm_baseline].
  split; apply c08_bind_state_iff; eexists; (split; [exact (Fo e He)|]); cbn; auto.
Qed.
Print Assumptions C38_every_circle_is_its_own_object.

(** The whole game only ever touches the fork. *)
Theorem C38_main_baseline_untouched size ss : legal size ss ->
  exists g, plays size ss = Ok g /\ realm_baseline (gm_realm g) KMain = baseline_new KMain.
Proof.
  intros L. destruct (plays_inv size ss L) as (g & ps & E & G & N & H).
  exists g. split; [exact E|]. exact (gi_main _ _ G).
Qed.
Print Assumptions C38_main_baseline_untouched.

(** After a synchronisation that visits every entity, what is drawn is what the
    engine stores, whatever happened before. *)
Theorem C38_synchronised_circles_are_drawn_where_they_are size ss vs : legal size ss ->
  (forall k, In k vs <-> k < size * size) ->
  exists g, plays size (ss ++ [Sync vs]) = Ok g /\
    forall e, In e (gm_entities g) ->
      fork_reads g (en_x e) (fst (en_transform e)) /\ fork_reads g (en_y e) (snd (en_transform e)).
Proof.
  intros L V.
  assert (L' : legal size (ss ++ [Sync vs])).
  { apply Forall_app. split; [exact L|]. constructor; [|constructor]. cbn. apply Forall_forall. intros k Hk. now apply V. }
  destruct (C38_every_schedule_moves_each_circle_alone size _ L') as (g & E & N & H).
  exists g. split; [exact E|]. intros e He. apply In_nth_error in He. destruct He as [k He].
  assert (Hk : k < size * size) by (rewrite <- N; apply nth_error_Some; congruence).
  specialize (H k e He). unfold circle_after in H. rewrite map_app, fold_left_app in H. cbn [map fold_left as_frame frame_on] in H.
  destruct (fold_left (frame_on k) (map as_frame ss) (circle_start size k, circle_start size k)) as [[x y] t].
  cbn [fst snd] in H.
  assert (X : existsb (Nat.eqb k) vs = true).
  { apply existsb_exists. exists k. split; [now apply V|apply Nat.eqb_refl]. }
  rewrite X in H. destruct H as (Hx & Hy & ->). auto.
Qed.
Print Assumptions C38_synchronised_circles_are_drawn_where_they_are.

(** A concrete game: a 2 by 2 grid, two walks (random numbers 1.0 and 0.5, then 0.0
    and 0.25), and a synchronisation of circles 3 and 1 only. *)
Definition c38_ss : list system :=
  [Walk [(1, (0x3f800000, 0x3f000000)%Z); (0, (0x3f800000, 0x3f800000)%Z)];
   Sync [3; 1]; Walk [(1, (0, 0x3e800000)%Z)]].
Example C38_example : legal 2 c38_ss /\
  circle_after 2 1 (map as_frame c38_ss)
  = ((0xc2480000, 0xbf000000)%Z, (0xc2440000, 0)%Z) /\   (* at (-50, -0.5), drawn at (-49, 0) *)
  circle_after 2 0 (map as_frame c38_ss)
  = ((0xc2440000, 0xc2440000)%Z, (0xc2480000, 0xc2480000)%Z) /\ (* at (-49, -49), drawn at (-50, -50) *)
  match plays 2 c38_ss with
  | Ok g => match nth_error (gm_entities g) 1 with
            | Some e => state_get (realm_baseline (gm_realm g) KFork) (TPrim TF32) (en_y e) = Ok (PPrim (VF32 0xbf000000%Z))
            | None => False
            end
  | _ => False
  end.
Proof.
  split; [|vm_compute; auto]. repeat constructor.
Qed.
