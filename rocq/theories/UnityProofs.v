(** Proofs about the Unity demo. *)
From Verif Require Export Table UnityDemo TweenProofs.
Open Scope nat_scope.

Definition field_eqb (f g : field) : bool := Nat.eqb (field_id f) (field_id g).
Lemma field_eqb_spec f g : reflect (f = g) (field_eqb f g).
Proof. destruct f, g; cbn; constructor; congruence. Qed.
Definition upd (vs : field -> dynprop) (f : field) (v : dynprop) : field -> dynprop :=
  fun g => if field_eqb g f then v else vs g.

Definition typed_handles (hs : field -> index) : list (ptype * index) :=
  map (fun f => (field_type f, hs f)) fields.
Record pinv (p : platform) (vs : field -> dynprop) : Prop := {
  pi_tab : table (pf_baseline p) (typed_handles (pf_handle p)) (map vs fields);
  pi_obj : obj_at (pf_baseline p) (pf_object p) =
           Some (mkObject (map (pf_handle p) fields) [] (ci_handle (pf_contract p)) timewarp_default)
}.

Lemma nth_typed hs f : nth_error (typed_handles hs) (field_id f) = Some (field_type f, hs f).
Proof. destruct f; reflexivity. Qed.
Lemma nth_vals (vs : field -> dynprop) f : nth_error (map vs fields) (field_id f) = Some (vs f).
Proof. destruct f; reflexivity. Qed.
Lemma set_vals vs f v : list_set (map vs fields) (field_id f) v = map (upd vs f v) fields.
Proof. destruct f; reflexivity. Qed.

Lemma get_ok p vs f : pinv p vs -> platform_get p f = Ok (vs f).
Proof.
  intros P. destruct (table_get _ _ _ _ _ _ (pi_tab _ _ P) (nth_typed _ f)) as (v & Hv & E & _).
  rewrite nth_vals in Hv. injection Hv as <-. unfold platform_get, c_state_value. now rewrite E.
Qed.
Lemma set_ok p vs f v : pinv p vs -> prop_type v = field_type f ->
  exists p', platform_set p f v = Ok p' /\ pinv p' (upd vs f v) /\
    pf_contract p' = pf_contract p /\ pf_object p' = pf_object p /\ pf_handle p' = pf_handle p.
Proof.
  intros P T. unfold platform_set, c_state_value_set.
  destruct (table_get _ _ _ _ _ _ (pi_tab _ _ P) (nth_typed _ f)) as (w & Hw & E & _). rewrite E.
  destruct (table_set _ _ _ (field_id f) (pf_handle p f) v (pi_tab _ _ P)) as (m & S & T').
  { rewrite T. apply nth_typed. }
  rewrite S. eexists. split; [reflexivity|]. split; [|auto].
  constructor; cbn [pf_baseline pf_handle pf_object pf_contract].
  - rewrite set_vals in T'. exact T'.
  - exact (pi_obj _ _ P).
Qed.

Lemma unity_get_type wild u f v : unity_get wild u f = Some v -> prop_type v = field_type f.
Proof.
  unfold unity_get. destruct (un_pos u) as [[? ?] ?], (un_euler u) as [[? ?] ?], (un_scale u) as [[? ?] ?].
  destruct f; try (intros H; injection H as <-; reflexivity).
  destruct (un_color u) as [[[[? ?] ?] ?]|]; [|discriminate]. intros H; injection H as <-; reflexivity.
Qed.

Fixpoint assign_vals (wild : spec_float -> Z) (vs : field -> dynprop) (u : unity) (fs : list field) : field -> dynprop :=
  match fs with
  | [] => vs
  | f :: t => match unity_get wild u f with None => vs | Some v => assign_vals wild (upd vs f v) u t end
  end.
Lemma assign_ok wild u fs : forall p vs, pinv p vs ->
  exists p', assign wild p u fs = Ok p' /\ pinv p' (assign_vals wild vs u fs) /\
    pf_contract p' = pf_contract p /\ pf_object p' = pf_object p /\ pf_handle p' = pf_handle p.
Proof.
  induction fs as [|f fs IH]; intros p vs P; cbn [assign assign_vals].
  - exists p. auto.
  - destruct (unity_get wild u f) as [v|] eqn:E; [|exists p; auto].
    destruct (set_ok p vs f v P (unity_get_type _ _ _ _ E)) as (p1 & E1 & P1 & C1 & O1 & H1). rewrite E1.
    destruct (IH p1 _ P1) as (p2 & E2 & P2 & C2 & O2 & H2). exists p2. split; [exact E2|]. split; [exact P2|]. repeat split; congruence.
Qed.
Lemma assign_vals_fields wild vs u f :
  assign_vals wild vs u fields f = match unity_get wild u f with Some v => v | None => vs f end.
Proof.
  unfold fields.
  assert (N : forall g, g <> ColorF -> exists v, unity_get wild u g = Some v).
  { intros g Hg. unfold unity_get. destruct (un_pos u) as [[? ?] ?], (un_euler u) as [[? ?] ?], (un_scale u) as [[? ?] ?].
    destruct g; eauto. congruence. }
  destruct (N PosX) as [v0 E0]; [discriminate|]. destruct (N PosY) as [v1 E1]; [discriminate|].
  destruct (N PosZ) as [v2 E2]; [discriminate|]. destruct (N EulerX) as [v3 E3]; [discriminate|].
  destruct (N EulerY) as [v4 E4]; [discriminate|]. destruct (N EulerZ) as [v5 E5]; [discriminate|].
  destruct (N ScaleX) as [v6 E6]; [discriminate|]. destruct (N ScaleY) as [v7 E7]; [discriminate|].
  destruct (N ScaleZ) as [v8 E8]; [discriminate|].
  cbn [assign_vals]. rewrite E0, E1, E2, E3, E4, E5, E6, E7, E8.
  destruct (unity_get wild u ColorF) as [v9|] eqn:E9; destruct f; rewrite ?E0, ?E1, ?E2, ?E3, ?E4, ?E5, ?E6, ?E7, ?E8, ?E9; reflexivity.
Qed.

Definition zero_of (f : field) : dynprop := nth (field_id f) zeros (PPrim (VU64 0)).

Lemma awake_ok : exists p, awake = Ok p /\ pinv p zero_of /\ ci_ty (pf_contract p) = Ball.
Proof.
  unfold awake, ball_register.
  destruct (register_spec (baseline_new KMain) Ball (binv_new KMain)) as [[H _]|[_ (cs & h & Hi & E)]].
  { exfalso. destruct H as (h & cd & H & _). change (con_at (baseline_new KMain) h = Some cd) in H.
    unfold con_at, get in H. cbn in H. destruct (ix h) as [|[|[|[|[|[]]]]]]; discriminate. }
  rewrite E.
  assert (Hb : binv (with_contracts (baseline_new KMain) cs)) by (eapply register_binv; [apply binv_new|exact E]).
  assert (Hc : con_at (with_contracts (baseline_new KMain) cs) h <> None).
  { unfold con_at. cbn [b_contracts with_contracts].
    rewrite (insert_get _ _ _ _ h (bi_con _ (binv_new KMain)) Hi).
    destruct (index_eqb_spec h h); [discriminate|congruence]. }
  cbn [ci_handle]. unfold ball_object_create.
  destruct (table_create _ (mkCinst Ball h) zeros [] [] (table_empty _ Hb) Hc eq_refl eq_refl)
    as (o & ob & b' & Ec & Cr & Ho & _ & _ & L & T).
  rewrite Ec.
  destruct (o_states ob) as [|h0 [|h1 [|h2 [|h3 [|h4 [|h5 [|h6 [|h7 [|h8 [|h9 [|]]]]]]]]]]] eqn:Es; cbn in L; try lia.
  assert (B : forall f hx, nth_error [h0; h1; h2; h3; h4; h5; h6; h7; h8; h9] (field_id f) = Some hx ->
            c_bind_state b' (field_type f) (field_id f) h o = Ok hx).
  { intros f hx Hx. unfold c_bind_state.
    assert (Bd : bind_state b' (mkPid (field_type f) (field_id f) h) o = Ok hx).
    { apply c08_bind_state_iff. exists ob. split; [exact Ho|]. cbn [pid_contract pid_idx]. rewrite Es. split; [symmetry; apply (cr_obj _ _ _ _ _ _ _ Cr)|exact Hx]. }
    now rewrite Bd. }
  unfold fields. cbn [bind_fields].
  rewrite (B PosX h0 eq_refl), (B PosY h1 eq_refl), (B PosZ h2 eq_refl), (B EulerX h3 eq_refl), (B EulerY h4 eq_refl),
    (B EulerZ h5 eq_refl), (B ScaleX h6 eq_refl), (B ScaleY h7 eq_refl), (B ScaleZ h8 eq_refl), (B ColorF h9 eq_refl).
  eexists. split; [reflexivity|]. split; [|reflexivity].
  constructor; cbn [pf_baseline pf_handle pf_object pf_contract].
  - unfold new_handles in T. rewrite Es in T. exact T.
  - rewrite Ho. pose proof (cr_obj _ _ _ _ _ _ _ Cr) as H1. pose proof (cr_warp _ _ _ _ _ _ _ Cr) as H2.
    pose proof (is_len _ _ _ _ _ (cr_ch _ _ _ _ _ _ _ Cr)) as L2.
    destruct ob as [st ch con w]; cbn [o_states o_channels o_contract o_warp ci_handle] in *. subst st con w.
    destruct ch; [reflexivity|discriminate].
Qed.

Lemma updates_ok wild us : forall p vs, pinv p vs ->
  exists p', updates wild true p us = Ok p' /\
    pinv p' (fold_left (fun vs u => assign_vals wild vs u fields) us vs) /\
    pf_contract p' = pf_contract p /\ pf_object p' = pf_object p /\ pf_handle p' = pf_handle p.
Proof.
  induction us as [|u us IH]; intros p vs P; cbn [updates fold_left].
  - exists p. auto.
  - unfold update. destruct (assign_ok wild u fields p vs P) as (p1 & E1 & P1 & C1 & O1 & H1). rewrite E1.
    destruct (IH p1 _ P1) as (p2 & E2 & P2 & C2 & O2 & H2). exists p2. split; [exact E2|]. split; [exact P2|]. repeat split; congruence.
Qed.

(** ** The conversions *)
Open Scope Z_scope.
Lemma trunc_bounds m e z : f32_trunc (S754_finite false m e) = Some z ->
  ge_int (Zpos m) e z /\ ~ ge_int (Zpos m) e (z + 1).
Proof.
  intros H. assert (Hz : z = if 0 <=? e then Zpos m * 2 ^ e else Zpos m / 2 ^ (- e)) by (unfold f32_trunc in H; congruence).
  clear H. subst z. unfold ge_int. destruct (Z.leb_spec 0 e).
  - replace (Z.max 0 (- e)) with 0 by lia. replace (Z.max 0 e) with e by lia. rewrite Z.pow_0_r. lia.
  - replace (Z.max 0 (- e)) with (- e) by lia. replace (Z.max 0 e) with 0 by lia. rewrite Z.pow_0_r.
    pose proof (pow2_pos (- e) ltac:(lia)). pose proof (Z.div_mod (Zpos m) (2 ^ (- e)) ltac:(lia)).
    pose proof (Z.mod_pos_bound (Zpos m) (2 ^ (- e)) ltac:(lia)). nia.
Qed.
Lemma trunc_u32 x : sf_sign x = Some false -> f32_as_u32 x < u32_max -> f32_trunc x = Some (f32_as_u32 x).
Proof.
  destruct x as [s|s| |s m e]; cbn [sf_sign f32_trunc f32_as_u32]; intros Hs Hlt; try discriminate; injection Hs as ->; try lia.
  - reflexivity.
  - unfold u32_max in *. f_equal. destruct (0 <=? e); lia.
Qed.
