(** Proofs about the circle game. *)
From Verif Require Export Table CircleGame CircleSpec.
Open Scope nat_scope.

Notation F32t := (TPrim TF32).
Definition handles_of (es : list entity) : list (ptype * index) :=
  flat_map (fun e => [(F32t, en_x e); (F32t, en_y e)]) es.
Definition vals_of (ps : list (Z * Z)) : list dynprop :=
  flat_map (fun p => [PPrim (VF32 (fst p)); PPrim (VF32 (snd p))]) ps.

Lemma nth_pairs {A B} (f g : A -> B) l k a : nth_error l k = Some a ->
  nth_error (flat_map (fun a => [f a; g a]) l) (2 * k) = Some (f a) /\
  nth_error (flat_map (fun a => [f a; g a]) l) (2 * k + 1) = Some (g a).
Proof.
  revert k; induction l as [|x l IH]; intros [|k] H; cbn [nth_error] in H; try discriminate.
  - injection H as ->. auto.
  - destruct (IH k H) as [H1 H2].
    replace (2 * S k) with (S (S (2 * k))) by lia. replace (S (S (2 * k)) + 1) with (S (S (2 * k + 1))) by lia.
    cbn [flat_map app nth_error]. auto.
Qed.
Lemma set_vals_x ps k p x : nth_error ps k = Some p ->
  list_set (vals_of ps) (2 * k) (PPrim (VF32 x)) = vals_of (list_set ps k (x, snd p)).
Proof.
  revert k; induction ps as [|q ps IH]; intros [|k] H; cbn [nth_error] in H; try discriminate.
  - injection H as ->. reflexivity.
  - replace (2 * S k) with (S (S (2 * k))) by lia. cbn [vals_of flat_map app list_set]. do 2 f_equal. apply IH. exact H.
Qed.
Lemma set_vals_y ps k p y : nth_error ps k = Some p ->
  list_set (vals_of ps) (2 * k + 1) (PPrim (VF32 y)) = vals_of (list_set ps k (fst p, y)).
Proof.
  revert k; induction ps as [|q ps IH]; intros [|k] H; cbn [nth_error] in H; try discriminate.
  - injection H as ->. reflexivity.
  - replace (2 * S k + 1) with (S (S (2 * k + 1))) by lia. cbn [vals_of flat_map app list_set]. do 2 f_equal. apply IH. exact H.
Qed.

Record ginv (g : game) (ps : list (Z * Z)) : Prop := {
  gi_tab : table (r_fork (gm_realm g)) (handles_of (gm_entities g)) (vals_of ps);
  gi_len : length ps = length (gm_entities g);
  gi_fork : Forall (fun e => en_kind e = KFork) (gm_entities g);
  gi_main : r_main (gm_realm g) = baseline_new KMain;
  gi_ty : ci_ty (gm_contract g) = Circle;
  gi_con : con_at (r_fork (gm_realm g)) (ci_handle (gm_contract g)) <> None;
  gi_obj : Forall (fun e => obj_at (r_fork (gm_realm g)) (en_obj e) =
                            Some (mkObject [en_x e; en_y e] [] (ci_handle (gm_contract g)) timewarp_default))
                  (gm_entities g);
  gi_nodup : NoDup (map en_obj (gm_entities g))
}.

Lemma configure_ok : exists g, configure = Ok g /\ gm_entities g = [] /\ ginv g [].
Proof.
  unfold configure. cbn [realm_baseline realm_new r_fork].
  destruct (register_spec (baseline_new KFork) Circle (binv_new KFork)) as [[H _]|[_ (cs & h & Hi & E)]].
  { exfalso. destruct H as (h & cd & H & _). change (con_at (baseline_new KFork) h = Some cd) in H. unfold con_at, get in H. cbn in H. destruct (ix h) as [|[|[|[|[|[]]]]]]; discriminate. }
  rewrite E.
  assert (Hb : binv (with_contracts (baseline_new KFork) cs)) by (eapply register_binv; [apply binv_new|exact E]).
  eexists. split; [reflexivity|]. split; [reflexivity|].
  constructor; cbn [gm_realm gm_entities gm_contract realm_set_baseline r_fork r_main ci_handle ci_ty]; try solve [constructor].
  - apply table_empty. exact Hb.
  - unfold con_at. cbn [b_contracts with_contracts].
    rewrite (insert_get _ _ _ _ h (bi_con _ (binv_new KFork)) Hi).
    destruct (index_eqb_spec h h); [discriminate|congruence].
Qed.

Lemma spawn_ok size g ps xy : ginv g ps ->
  let p := (offset_and_scale size (fst xy), offset_and_scale size (snd xy)) in
  exists g' e, spawn size g xy = Ok g' /\ ginv g' (ps ++ [p]) /\
    gm_entities g' = gm_entities g ++ [e] /\ en_transform e = p.
Proof.
  intros G p. unfold spawn. cbn [fst snd] in p.
  set (x := offset_and_scale size (fst xy)) in *. set (y := offset_and_scale size (snd xy)) in *.
  destruct (table_create (r_fork (gm_realm g)) (gm_contract g) [PPrim (VF32 x); PPrim (VF32 y)] _ _ (gi_tab _ _ G) (gi_con _ _ G))
    as (o & ob & b' & E & Cr & Ho & Hfr & Hc & L & T).
  { rewrite (gi_ty _ _ G). reflexivity. }
  { rewrite (gi_ty _ _ G). reflexivity. }
  cbn [realm_baseline]. rewrite E.
  assert (Hst : exists hx hy, o_states ob = [hx; hy]).
  { destruct (o_states ob) as [|hx [|hy [|]]]; cbn in L; try lia. eauto. }
  destruct Hst as (hx & hy & Hst).
  assert (Hch : o_channels ob = []).
  { pose proof (is_len _ _ _ _ _ (cr_ch _ _ _ _ _ _ _ Cr)) as L2. destruct (o_channels ob); [auto|discriminate]. }
  assert (I0 : ci_state_id (gm_contract g) 0 = Some (mkPid F32t 0 (ci_handle (gm_contract g)))).
  { unfold ci_state_id. rewrite (gi_ty _ _ G). reflexivity. }
  assert (I1 : ci_state_id (gm_contract g) 1 = Some (mkPid F32t 1 (ci_handle (gm_contract g)))).
  { unfold ci_state_id. rewrite (gi_ty _ _ G). reflexivity. }
  rewrite I0, I1.
  assert (B0 : bind_state b' (mkPid F32t 0 (ci_handle (gm_contract g))) o = Ok hx).
  { apply c08_bind_state_iff. exists ob. split; auto. cbn. rewrite Hst. split; auto. symmetry. apply (cr_obj _ _ _ _ _ _ _ Cr). }
  assert (B1 : bind_state b' (mkPid F32t 1 (ci_handle (gm_contract g))) o = Ok hy).
  { apply c08_bind_state_iff. exists ob. split; auto. cbn. rewrite Hst. split; auto. symmetry. apply (cr_obj _ _ _ _ _ _ _ Cr). }
  rewrite B0, B1. do 2 eexists. split; [reflexivity|].
  assert (Eob : ob = mkObject [hx; hy] [] (ci_handle (gm_contract g)) timewarp_default).
  { pose proof (cr_obj _ _ _ _ _ _ _ Cr) as H1. pose proof (cr_warp _ _ _ _ _ _ _ Cr) as H2.
    destruct ob; cbn in *. congruence. }
  assert (Old : forall o', o' <> o -> obj_at b' o' = obj_at (r_fork (gm_realm g)) o').
  { intros o' Hne. unfold obj_at.
    rewrite (insert_get _ _ _ _ o' (bi_obj _ (tb_inv _ _ _ (gi_tab _ _ G))) (cr_insert _ _ _ _ _ _ _ Cr)).
    destruct (index_eqb_spec o o'); [congruence|reflexivity]. }
  assert (Ne : Forall (fun e => en_obj e <> o) (gm_entities g)).
  { eapply Forall_impl; [|exact (gi_obj _ _ G)]. cbn. intros e He Heq. rewrite Heq in He. congruence. }
  split; [|split; reflexivity].
  constructor; cbn [gm_realm gm_entities gm_contract realm_set_baseline r_fork r_main en_kind en_obj en_x en_y].
  - unfold handles_of, vals_of. rewrite !flat_map_app. cbn [flat_map app en_x en_y fst snd].
    unfold new_handles in T. rewrite (gi_ty _ _ G), Hst in T. exact T.
  - rewrite !app_length, (gi_len _ _ G). reflexivity.
  - apply Forall_app. split; [exact (gi_fork _ _ G)|repeat constructor].
  - exact (gi_main _ _ G).
  - exact (gi_ty _ _ G).
  - exact Hc.
  - apply Forall_app. split.
    + pose proof (gi_obj _ _ G) as F. rewrite Forall_forall in *. intros e He. rewrite Old; auto.
    + repeat constructor. cbn. rewrite Ho, Eob. reflexivity.
  - rewrite map_app. cbn [map en_obj]. apply Permutation_NoDup with (l := o :: map en_obj (gm_entities g)).
    + apply Permutation_cons_append.
    + constructor; [|exact (gi_nodup _ _ G)]. intros Hin. apply in_map_iff in Hin. destruct Hin as (e & Ee & He).
      rewrite Forall_forall in Ne. apply (Ne e He Ee).
Qed.

Lemma spawn_all_ok size l : forall g ps, ginv g ps ->
  let qs := map (fun xy => (offset_and_scale size (fst xy), offset_and_scale size (snd xy))) l in
  exists g', spawn_all size g l = Ok g' /\ ginv g' (ps ++ qs) /\
    map en_transform (gm_entities g') = map en_transform (gm_entities g) ++ qs.
Proof.
  induction l as [|xy l IH]; intros g ps G; cbn [map spawn_all].
  - exists g. rewrite !app_nil_r. auto.
  - destruct (spawn_ok size g ps xy G) as (g1 & e & E & G1 & En & Et). rewrite E.
    destruct (IH g1 _ G1) as (g2 & E2 & G2 & T2). exists g2. split; [exact E2|].
    rewrite <- app_assoc in G2. split; [exact G2|].
    rewrite T2, En, map_app, <- app_assoc. cbn [map app]. rewrite Et. reflexivity.
Qed.

(** Replacing the fork's states keeps the rest of the invariant. *)
Lemma ginv_states g ps ps' m : ginv g ps -> length ps' = length ps ->
  table (with_states (r_fork (gm_realm g)) m) (handles_of (gm_entities g)) (vals_of ps') ->
  ginv (mkGame (realm_set_baseline (gm_realm g) KFork (with_states (r_fork (gm_realm g)) m)) (gm_contract g) (gm_entities g)) ps'.
Proof.
  intros G L T. constructor; cbn [gm_realm gm_entities gm_contract realm_set_baseline r_fork r_main]; try apply G; auto.
  rewrite L. apply G.
Qed.

Definition moved (p : Z * Z) (rs : Z * Z) : Z * Z :=
  (f32_add (fst p) (nudge (fst rs)), f32_add (snd p) (nudge (snd rs))).

Lemma nth_len {A B} (l : list A) (m : list B) k x : length l = length m -> nth_error m k = Some x -> exists y, nth_error l k = Some y.
Proof.
  intros L H. destruct (nth_error l k) as [y|] eqn:E; eauto.
  apply nth_error_None in E. assert (k < length m) by (apply nth_error_Some; congruence). lia.
Qed.

Lemma walk_one_ok g ps k e rx ry : ginv g ps -> nth_error (gm_entities g) k = Some e ->
  exists p r, nth_error ps k = Some p /\ walk_one (gm_realm g) e rx ry = Ok r /\
    ginv (mkGame r (gm_contract g) (gm_entities g)) (list_set ps k (moved p (rx, ry))).
Proof.
  intros G He. destruct (nth_len ps (gm_entities g) k e (gi_len _ _ G) He) as [p Hp].
  assert (K : en_kind e = KFork).
  { pose proof (gi_fork _ _ G) as F. rewrite Forall_forall in F. apply F. eapply nth_error_In; eauto. }
  destruct (nth_pairs (fun e => (F32t, en_x e)) (fun e => (F32t, en_y e)) _ _ _ He) as [Hx Hy].
  fold (handles_of (gm_entities g)) in Hx, Hy.
  destruct (nth_pairs (fun p : Z * Z => PPrim (VF32 (fst p))) (fun p => PPrim (VF32 (snd p))) _ _ _ Hp) as [Vx Vy].
  fold (vals_of ps) in Vx, Vy.
  pose proof (gi_tab _ _ G) as T.
  exists p. unfold walk_one. rewrite K. cbn [realm_baseline].
  destruct (table_get _ _ _ _ _ _ T Hx) as (v & Hv & Gx & _). assert (v = PPrim (VF32 (fst p))) by congruence. subst v.
  unfold bump at 1. rewrite Gx.
  destruct (table_set _ _ _ (2 * k) (en_x e) (PPrim (VF32 (f32_add (fst p) (nudge rx)))) T Hx) as (m1 & S1 & T1).
  rewrite S1. rewrite (set_vals_x _ _ _ _ Hp) in T1.
  set (p1 := (f32_add (fst p) (nudge rx), snd p)) in *.
  assert (Hp1 : nth_error (list_set ps k p1) k = Some p1).
  { apply nth_error_list_set_eq. apply nth_error_Some. congruence. }
  destruct (nth_pairs (fun p : Z * Z => PPrim (VF32 (fst p))) (fun p => PPrim (VF32 (snd p))) _ _ _ Hp1) as [_ Vy1].
  fold (vals_of (list_set ps k p1)) in Vy1.
  destruct (table_get _ _ _ _ _ _ T1 Hy) as (v & Hv1 & Gy & _). assert (v = PPrim (VF32 (snd p1))) by congruence. subst v.
  unfold bump. rewrite Gy.
  destruct (table_set _ _ _ (2 * k + 1) (en_y e) (PPrim (VF32 (f32_add (snd p1) (nudge ry)))) T1 Hy) as (m2 & S2 & T2).
  rewrite S2. rewrite (set_vals_y _ _ _ _ Hp1) in T2.
  eexists. split; [exact Hp|]. split; [reflexivity|].
  assert (LS : forall (A : Type) (l : list A) i a b, list_set (list_set l i a) i b = list_set l i b).
  { intros A l. induction l as [|z l IH]; intros [|i] a b; cbn; auto. now rewrite IH. }
  rewrite LS in T2. cbn [fst snd p1] in T2. unfold moved. cbn [fst snd].
  replace (with_states (with_states (r_fork (gm_realm g)) m1) m2) with (with_states (r_fork (gm_realm g)) m2) in * by reflexivity.
  apply ginv_states with (ps := ps); auto. apply list_set_length.
Qed.

Lemma random_walk_ok vs : forall g ps, ginv g ps -> Forall (fun v => fst v < length ps) vs ->
  exists g', random_walk g vs = Ok g' /\ gm_entities g' = gm_entities g /\ gm_contract g' = gm_contract g /\
    ginv g' (fold_left (fun ps v => match nth_error ps (fst v) with
                                    | Some p => list_set ps (fst v) (moved p (snd v))
                                    | None => ps end) vs ps).
Proof.
  induction vs as [|[k [rx ry]] vs IH]; intros g ps G F; cbn [random_walk fold_left].
  - exists g. auto.
  - inversion F as [|? ? Hk F']; subst. cbn [fst snd] in *.
    destruct (nth_error (gm_entities g) k) as [e|] eqn:He.
    2:{ apply nth_error_None in He. rewrite (gi_len _ _ G) in Hk. lia. }
    destruct (walk_one_ok g ps k e rx ry G He) as (p & r & Hp & E & G1). rewrite E, Hp.
    destruct (IH _ _ G1) as (g2 & E2 & Es & Ec & G2).
    { rewrite list_set_length. exact F'. }
    exists g2. cbn in Es, Ec. auto.
Qed.

Lemma ginv_entities g ps es : ginv g ps ->
  Forall2 (fun e e' => en_kind e' = en_kind e /\ en_obj e' = en_obj e /\ en_x e' = en_x e /\ en_y e' = en_y e) (gm_entities g) es ->
  ginv (mkGame (gm_realm g) (gm_contract g) es) ps.
Proof.
  intros G F.
  assert (H1 : handles_of es = handles_of (gm_entities g)).
  { clear -F. induction F as [|e e' l l' (K & O & X & Y) F IH]; cbn; auto. rewrite X, Y. f_equal. f_equal. exact IH. }
  assert (H2 : map en_obj es = map en_obj (gm_entities g)).
  { clear -F. induction F as [|e e' l l' (K & O & X & Y) F IH]; cbn; auto. rewrite O. f_equal. exact IH. }
  assert (H3 : length es = length (gm_entities g)) by (symmetry; eapply Forall2_len; eauto).
  destruct G. constructor; cbn [gm_realm gm_entities gm_contract]; auto; try congruence.
  - clear -F gi_fork0. induction F as [|e e' l l' (K & O & X & Y) F IH]; constructor; inversion gi_fork0; subst; auto. congruence.
  - clear -F gi_obj0. induction F as [|e e' l l' (K & O & X & Y) F IH]; constructor; inversion gi_obj0; subst; auto. rewrite O, X, Y. auto.
Qed.

Lemma sync_ok vs : forall g ps, ginv g ps -> Forall (fun k => k < length ps) vs ->
  exists g', sync_transforms g vs = Ok g' /\ ginv g' ps /\ gm_realm g' = gm_realm g /\ gm_contract g' = gm_contract g /\
    map en_transform (gm_entities g') =
    fold_left (fun ts k => match nth_error ps k with Some p => list_set ts k p | None => ts end) vs
              (map en_transform (gm_entities g)).
Proof.
  induction vs as [|k vs IH]; intros g ps G F; cbn [sync_transforms fold_left].
  - exists g. auto.
  - inversion F as [|? ? Hk F']; subst.
    destruct (nth_error (gm_entities g) k) as [e|] eqn:He.
    2:{ apply nth_error_None in He. rewrite (gi_len _ _ G) in Hk. lia. }
    destruct (nth_len ps (gm_entities g) k e (gi_len _ _ G) He) as [p Hp].
    assert (K : en_kind e = KFork).
    { pose proof (gi_fork _ _ G) as Ff. rewrite Forall_forall in Ff. apply Ff. eapply nth_error_In; eauto. }
    destruct (nth_pairs (fun e => (F32t, en_x e)) (fun e => (F32t, en_y e)) _ _ _ He) as [Hx Hy].
    fold (handles_of (gm_entities g)) in Hx, Hy.
    destruct (nth_pairs (fun p : Z * Z => PPrim (VF32 (fst p))) (fun p => PPrim (VF32 (snd p))) _ _ _ Hp) as [Vx Vy].
    fold (vals_of ps) in Vx, Vy.
    destruct (table_get _ _ _ _ _ _ (gi_tab _ _ G) Hx) as (v & Hv & Gx & _). assert (v = PPrim (VF32 (fst p))) by congruence. subst v.
    destruct (table_get _ _ _ _ _ _ (gi_tab _ _ G) Hy) as (v & Hv' & Gy & _). assert (v = PPrim (VF32 (snd p))) by congruence. subst v.
    rewrite K. cbn [realm_baseline]. rewrite Gx, Gy.
    set (e' := mkEntity KFork (en_obj e) (en_x e) (en_y e) (fst p, snd p)).
    assert (F2 : Forall2 (fun e e' => en_kind e' = en_kind e /\ en_obj e' = en_obj e /\ en_x e' = en_x e /\ en_y e' = en_y e)
                  (gm_entities g) (list_set (gm_entities g) k e')).
    { apply nth_Forall2; [now rewrite list_set_length|]. intros i a b Ha Hb.
      rewrite nth_error_list_set in Hb. destruct (Nat.eqb_spec k i) as [<-|].
      - destruct (Nat.ltb_spec k (length (gm_entities g))); [|congruence].
        assert (a = e) by congruence. assert (b = e') by congruence. subst. cbn. auto.
      - assert (a = b) by congruence. subst. auto. }
    destruct (IH _ _ (ginv_entities _ _ _ G F2) F') as (g2 & E2 & G2 & R2 & C2 & T2).
    exists g2. split; [exact E2|]. split; [exact G2|]. split; [exact R2|]. split; [exact C2|]. rewrite T2. cbn [gm_entities].
    rewrite Hp. f_equal. clear. generalize (gm_entities g). intros es. revert k.
    induction es as [|a es IH]; intros [|k]; cbn; auto.
    + destruct p; reflexivity.
    + f_equal. apply IH.
Qed.

(** ** The systems as frames of the specification *)
Definition as_frame (s : system) : frame := match s with Walk vs => FWalk vs | Sync vs => FSync vs end.

Lemma walk_pos vs : forall ps k p, nth_error ps k = Some p ->
  nth_error (fold_left (fun ps v => match nth_error ps (fst v) with
                                    | Some p => list_set ps (fst v) (moved p (snd v))
                                    | None => ps end) vs ps) k
  = Some (fold_left (fun p v => if Nat.eqb (fst v) k then moved p (snd v) else p) vs p).
Proof.
  induction vs as [|[j r] vs IH]; intros ps k p H; cbn [fold_left fst snd]; auto.
  destruct (nth_error ps j) as [q|] eqn:E.
  - apply IH. rewrite nth_error_list_set. destruct (Nat.eqb_spec j k) as [->|]; auto.
    destruct (Nat.ltb_spec k (length ps)) as [|Hl]; [congruence|]. apply nth_error_None in Hl. congruence.
  - apply IH. destruct (Nat.eqb_spec j k) as [->|]; congruence.
Qed.
Lemma sync_pos vs (ps : list (Z * Z)) k p : nth_error ps k = Some p -> forall ts t, length ts = length ps -> nth_error ts k = Some t ->
  nth_error (fold_left (fun ts k => match nth_error ps k with Some p => list_set ts k p | None => ts end) vs ts) k
  = Some (if existsb (Nat.eqb k) vs then p else t).
Proof.
  intros Hp. induction vs as [|j vs IH]; intros ts t L H; cbn [fold_left existsb]; auto.
  destruct (nth_error ps j) as [q|] eqn:E.
  - rewrite (IH (list_set ts j q) (if Nat.eqb k j then p else t)).
    + destruct (Nat.eqb_spec k j) as [->|]; cbn; destruct (existsb _ vs); auto.
    + now rewrite list_set_length.
    + rewrite nth_error_list_set. destruct (Nat.eqb_spec j k) as [->|Hn].
      * rewrite Nat.eqb_refl. destruct (Nat.ltb_spec k (length ts)) as [|Hl]; [congruence|]. apply nth_error_None in Hl. congruence.
      * destruct (Nat.eqb_spec k j); [congruence|auto].
  - rewrite (IH ts t L H). destruct (Nat.eqb_spec k j) as [->|]; [congruence|reflexivity].
Qed.
Lemma walk_len vs : forall ps, length (fold_left (fun ps v => match nth_error ps (fst v) with
                                    | Some p => list_set ps (fst v) (moved p (snd v))
                                    | None => ps end) vs ps) = length ps.
Proof.
  induction vs as [|v vs IH]; intros ps; cbn; auto. rewrite IH. destruct (nth_error ps (fst v)); auto. apply list_set_length.
Qed.

Lemma run_ok ss : forall g ps, ginv g ps -> Forall (fun s => visits_circles (length ps) (as_frame s)) ss ->
  exists g' ps', run_systems g ss = Ok g' /\ ginv g' ps' /\ length ps' = length ps /\ gm_contract g' = gm_contract g /\
    forall k p t, nth_error ps k = Some p -> nth_error (map en_transform (gm_entities g)) k = Some t ->
      exists p' t', fold_left (fun s f => frame_on k s (as_frame f)) ss (p, t) = (p', t') /\
        nth_error ps' k = Some p' /\ nth_error (map en_transform (gm_entities g')) k = Some t'.
Proof.
  induction ss as [|s ss IH]; intros g ps G F; cbn [run_systems fold_left].
  - exists g, ps. split; [reflexivity|]. split; [exact G|]. split; [reflexivity|]. split; [reflexivity|]. intros k p t Hp Ht. exists p, t. auto.
  - inversion F as [|? ? Hs F']; subst. destruct s as [vs|vs]; cbn [run_system visits_circles as_frame] in *.
    + destruct (random_walk_ok vs g ps G Hs) as (g1 & E & Es & Ec & G1). rewrite E.
      destruct (IH g1 _ G1) as (g2 & ps2 & E2 & G2 & L2 & C2 & H2).
      { rewrite walk_len. exact F'. }
      exists g2, ps2. split; [exact E2|]. split; [exact G2|]. split; [rewrite L2; apply walk_len|]. split; [congruence|].
      intros k p t Hp Ht. rewrite <- Es in Ht. apply (H2 k _ t (walk_pos vs ps k p Hp) Ht).
    + destruct (sync_ok vs g ps G Hs) as (g1 & E & G1 & R1 & C1 & T1). rewrite E.
      destruct (IH g1 _ G1 F') as (g2 & ps2 & E2 & G2 & L2 & C2 & H2).
      exists g2, ps2. split; [exact E2|]. split; [exact G2|]. split; [exact L2|]. split; [congruence|].
      intros k p t Hp Ht. apply (H2 k p); auto. rewrite T1. cbn [frame_on as_frame fst snd]. apply sync_pos; auto.
      rewrite map_length. symmetry. apply (gi_len _ _ G).
Qed.

Lemma grid_nth size k : k < size * size -> nth_error (grid size) k = Some (k / size, k mod size).
Proof.
  intros H. destruct size as [|n]; [lia|]. set (m := S n) in *. unfold grid.
  assert (G : forall a s k, k < s * m -> nth_error (list_prod (seq a s) (seq 0 m)) k = Some (a + k / m, k mod m)).
  { clear. intros a s; revert a. induction s as [|s IH]; intros a k H; [lia|]. cbn [seq list_prod].
    destruct (Nat.lt_ge_cases k m) as [L|L].
    - rewrite nth_error_app1 by (rewrite map_length, seq_length; exact L).
      rewrite nth_error_map. rewrite (nth_error_nth' _ 0) by (rewrite seq_length; lia). rewrite seq_nth by lia. cbn [option_map plus].
      rewrite Nat.div_small, Nat.mod_small by lia. now rewrite Nat.add_0_r.
    - rewrite nth_error_app2 by (rewrite map_length, seq_length; exact L). rewrite map_length, seq_length.
      rewrite IH by (cbn in H; lia).
      assert (E1 : k / m = S ((k - m) / m)).
      { replace k with ((k - m) + 1 * m) at 1 by lia. rewrite Nat.div_add by (unfold m; lia). lia. }
      assert (E2 : k mod m = (k - m) mod m).
      { replace k with ((k - m) + 1 * m) at 1 by lia. rewrite Nat.mod_add by (unfold m; lia). reflexivity. }
      rewrite E1, E2. do 2 f_equal. lia. }
  rewrite (G 0 m k H). reflexivity.
Qed.
Lemma grid_length size : length (grid size) = size * size.
Proof. unfold grid. now rewrite prod_length, !seq_length. Qed.
