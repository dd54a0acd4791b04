(** C53: a mutable view of a dynamic value writes through to that value and to
    nothing else. *)
From Verif Require Import BaseProofs ArenaProofs Dynamic BaselineSpec BaselineProofs PropertiesBaseline.
From Verif Require Import Views.
From Verif Require PropertiesDynamic PropertiesReach.
Import Coq.Strings.String.StringSyntax.
Open Scope string_scope.
Open Scope list_scope.
Open Scope nat_scope.

(** ** Specification *)

(** The elements of a vector property, each as a property value of its own. *)
Definition elements (d : dynprop) : list dynprim :=
  match d with
  | PPrim _ => []
  | PVec v =>
      match v with
      | WU8 l => map VU8 l | WU16 l => map VU16 l | WU32 l => map VU32 l | WU64 l => map VU64 l
      | WI8 l => map VI8 l | WI16 l => map VI16 l | WI32 l => map VI32 l | WI64 l => map VI64 l
      | WBool l => map VBool l | WF32 l => map VF32 l | WF64 l => map VF64 l
      | WString l => map VString l
      | WObjectHandle l => map VObjectHandle l
      | WContractDataHandle l => map VContractDataHandle l
      end
  end.

(** What a reference shows, as a property value. *)
Definition shown (r : dynref) : dynprop :=
  match r with RefPrim p x => PPrim (prim_from p x) | RefVec p l => PVec (vec_from p l) end.

(** A view of a whole place, taken by one of the four routes the API has. *)
Inductive taken (m : memory) : place -> view -> Prop :=
| by_borrow_mut i v : borrow_mut m i = Some v -> taken m (InVar i) v
| by_from i v : from_mut m i = Some v -> taken m (InVar i) v
| by_handle h v : state_mut (m_base m) h = Ok v -> taken m (InState (dh_type h) (dh_index h)) v.

(** A view of the elements [a .. a+n) of a vector. *)
Definition taken_slice (m : memory) (i a n : nat) (v : view) : Prop := from_mut_slice m i a n = Ok v.

(** Writing through one view any number of times. *)
Inductive write_op : Type := Assign (d : dynprim) | AssignAt (i : nat) (d : dynprim).
Definition does (m : memory) (v : view) (o : write_op) : used :=
  match o with Assign d => assign m v d | AssignAt i d => assign_at m v i d end.
Inductive writes (v : view) : memory -> list write_op -> memory -> Prop :=
| no_writes m : writes v m [] m
| one_write m o m1 os m' : does m v o = Wrote m1 -> writes v m1 os m' -> writes v m (o :: os) m'.

(** Everything but one place is as before. *)
Definition only (pl : place) (m m' : memory) : Prop :=
  (forall pl', pl' <> pl -> load m' pl' = load m pl') /\
  b_objects (m_base m') = b_objects (m_base m) /\
  b_contracts (m_base m') = b_contracts (m_base m) /\
  b_channels (m_base m') = b_channels (m_base m).

(** ** Proofs *)

Lemma elements_from p (l : list (rprim p)) : elements (PVec (vec_from p l)) = map (prim_from p) l.
Proof. destruct p; reflexivity. Qed.
Lemma prim_into_iff p d x : prim_try_into p d = Some x <-> d = prim_from p x.
Proof.
  split; [|intros ->; destruct p; reflexivity].
  destruct p, d; cbn; intros H; try discriminate; injection H as <-; reflexivity.
Qed.
Lemma vec_into_iff p d x : vec_try_into p d = Some x <-> d = vec_from p x.
Proof.
  split; [|intros ->; destruct p; reflexivity].
  destruct p, d; cbn; intros H; try discriminate; injection H as <-; reflexivity.
Qed.
Lemma prim_type_from p x : dynprim_type (prim_from p x) = TPrim p.
Proof. destruct p; reflexivity. Qed.
Lemma vec_type_from p l : prop_type (PVec (vec_from p l)) = TVec p.
Proof. destruct p; reflexivity. Qed.
Lemma prim_is d p : dynprim_type d = TPrim p -> exists x, d = prim_from p x.
Proof. destruct d; cbn; intros H; injection H as <-; eexists; reflexivity. Qed.

(** The place a view points at. *)
Definition target (v : view) : place := match v with MutPrim _ pl | MutVec _ pl _ _ => pl end.

(** A view that points at a value of its type. *)
Definition sound (m : memory) (v : view) : Prop :=
  match v with
  | MutPrim p pl => exists x, load m pl = Some (PPrim (prim_from p x))
  | MutVec p pl off len => exists l, load m pl = Some (PVec (vec_from p l)) /\ off + len <= length l
  end.

(** A place whose type is fixed: the type. *)
Definition reaches (m : memory) : Prop := reach (m_base m).

Lemma write_spec m pl d d0 :
  reaches m -> load m pl = Some d0 -> prop_type d = prop_type d0 ->
  load (write m pl d) pl = Some d /\ only pl m (write m pl d) /\ reaches (write m pl d).
Proof.
  intros Hr Hl Ht. destruct pl as [i|t h]; cbn in *.
  - destruct (nth_error (m_vars m) i) as [[e|t x]|] eqn:E; try discriminate.
    + cbn. rewrite nth_error_list_set_eq by (apply nth_error_Some; congruence). split; [reflexivity|].
      split; [|exact Hr]. unfold only; cbn. split; [|auto]. intros [j|t h] Hn; cbn; auto.
      rewrite nth_error_list_set_neq by congruence. reflexivity.
    + injection Hl as <-. rewrite PropertiesDynamic.C24_prop_type_of_converted in Ht.
      destruct (try_into t d) as [y|] eqn:Ey.
      2:{ apply PropertiesDynamic.C24_try_into_fails_iff_other_type in Ey. congruence. }
      cbn. rewrite nth_error_list_set_eq by (apply nth_error_Some; congruence).
      apply PropertiesDynamic.C24_try_into_sound in Ey. subst d. split; [reflexivity|].
      split; [|exact Hr]. unfold only; cbn. split; [|auto]. intros [j|t' h] Hn; cbn; auto.
      rewrite nth_error_list_set_neq by congruence. reflexivity.
  - destruct (state_get (m_base m) t h) as [e| |] eqn:E; try discriminate. injection Hl as ->.
    pose proof (C09_state_has_handle_type _ _ _ _ Hr E) as T0. rewrite T0 in Ht.
    destruct (state_set (m_base m) h d) as [r b'] eqn:Es. cbn.
    pose proof (C09_write_succeeds_iff_readable _ _ _ _ _ Hr Es) as [Hok _].
    rewrite Ht in Hok. assert (Hokr : is_ok r = true) by (apply Hok; eauto).
    destruct r as [[]| |]; try discriminate.
    pose proof (C09_write_then_read _ _ _ _ Hr Es) as [W1 [W2 [W3 [W4 W5]]]].
    rewrite Ht in W1, W2. rewrite W1. split; [reflexivity|].
    split.
    + unfold only; cbn. split; [|auto]. intros [j|t' h'] Hn; cbn; auto.
      rewrite W2 by congruence. reflexivity.
    + destruct Hr as [k [ops Hs]]. exists k, (ops ++ [BSetState h d]).
      eapply PropertiesReach.bsteps_snoc; [exact Hs|exact I| |].
      * cbn. rewrite Es. reflexivity.
      * discriminate.
Qed.

Lemma sound_shown m v : sound m v ->
  exists r d, deref m v = Some r /\ load m (target v) = Some d /\
    ref_type r = view_type v /\ prop_type d = view_type v.
Proof.
  destruct v as [p pl|p pl off len]; cbn.
  - intros [x E]. rewrite E.
    assert (Q : prim_try_into p (prim_from p x) = Some x) by (apply prim_into_iff; reflexivity).
    rewrite Q. do 2 eexists. split; [reflexivity|]. split; [reflexivity|]. split; [reflexivity|]. apply prim_type_from.
  - intros [l [E Hl]]. rewrite E. cbn.
    assert (Q : vec_try_into p (vec_from p l) = Some l) by (apply vec_into_iff; reflexivity).
    rewrite Q. do 2 eexists. split; [reflexivity|]. split; [reflexivity|]. split; [reflexivity|]. apply vec_type_from.
Qed.

Lemma view_of_sound m t pl x : load m pl = Some (dyn_from t x) -> sound m (view_of t pl x) /\ target (view_of t pl x) = pl /\
  deref m (view_of t pl x) = Some (ref_from t x) /\ view_type (view_of t pl x) = t.
Proof.
  intros E. destruct t as [p|p]; cbn in *; rewrite E; cbn.
  - assert (Q : vec_try_into p (vec_from p x) = Some x) by (apply vec_into_iff; reflexivity).
    rewrite Q, firstn_all. split; [|auto]. exists x. split; auto.
  - assert (Q : prim_try_into p (prim_from p x) = Some x) by (apply prim_into_iff; reflexivity).
    rewrite Q. split; [|auto]. exists x. auto.
Qed.

Lemma borrow_is_view_of d pl :
  (match d with PPrim p => mut_prim p pl | PVec v => mut_vec v pl end) = 
  match try_into (prop_type d) d with Some x => view_of (prop_type d) pl x | None => MutPrim TU8 pl end.
Proof. destruct d as [p|v]; [destruct p|destruct v]; reflexivity. Qed.

Lemma taken_spec m pl v : reaches m -> taken m pl v ->
  exists t x, load m pl = Some (dyn_from t x) /\ v = view_of t pl x.
Proof.
  intros Hr H. destruct H as [i v H|i v H|h v H].
  - unfold borrow_mut in H. destruct (nth_error (m_vars m) i) as [[d|]|] eqn:E; try discriminate.
    assert (Hv : v = match d with PPrim p => mut_prim p (InVar i) | PVec w => mut_vec w (InVar i) end)
      by (destruct d; congruence).
    rewrite borrow_is_view_of in Hv.
    destruct (PropertiesDynamic.C24_every_dynamic_value_is_static d) as [x Hx].
    rewrite (proj2 (PropertiesDynamic.C24_try_into_sound _ d x) Hx) in Hv.
    exists (prop_type d), x. split; auto. cbn. rewrite E. congruence.
  - unfold from_mut in H. destruct (nth_error (m_vars m) i) as [[|t x]|] eqn:E; try discriminate.
    injection H as <-. exists t, x. cbn. rewrite E. auto.
  - unfold state_mut in H. cbn.
    unfold state_get, tm_get. destruct (b_states (m_base m) (dh_type h)) as [a|] eqn:E; try discriminate.
    destruct (get a (dh_index h)) as [d|] eqn:Eg; try discriminate. cbn.
    destruct (try_into (dh_type h) d) as [x|] eqn:Ex; try discriminate. injection H as <-.
    exists (dh_type h), x. split; auto. f_equal. apply PropertiesDynamic.C24_try_into_sound. exact Ex.
Qed.

Lemma nth_skip {A} a : forall (x : list A) j, nth_error (skipn a x) j = nth_error x (a + j).
Proof. induction a as [|a IH]; intros [|y x] j; cbn; auto. destruct j; auto. Qed.
Lemma nth_first {A} n : forall (x : list A) j, j < n -> nth_error (firstn n x) j = nth_error x j.
Proof. induction n as [|n IH]; intros [|y x] [|j] H; cbn; auto; try lia. apply IH. lia. Qed.
Lemma nth_slice {A} (x : list A) a n j : j < n -> nth_error (firstn n (skipn a x)) j = nth_error x (a + j).
Proof. intros H. rewrite nth_first by exact H. apply nth_skip. Qed.

(** ** C53 *)

(** A view shows the value of the place it was taken of, as an immutable
    reference to it would, and its type is the value's. *)
Theorem C53_a_view_shows_the_value :
  forall m pl v, reach (m_base m) -> taken m pl v ->
    exists d, load m pl = Some d /\ view_type v = prop_type d /\ deref m v = Some (borrow d).
Proof.
  intros m pl v Hr H. destruct (taken_spec _ _ _ Hr H) as (t & x & E & ->).
  destruct (view_of_sound _ _ _ _ E) as (_ & _ & D & T).
  exists (dyn_from t x). split; auto. split.
  - rewrite T. symmetry. apply PropertiesDynamic.C24_prop_type_of_converted.
  - rewrite D. f_equal. symmetry. apply PropertiesDynamic.C24_borrow_preserves_value.
Qed.
Print Assumptions C53_a_view_shows_the_value.

(** ... and of a slice, the elements of the slice; slicing past the end panics. *)
Theorem C53_a_slice_shows_its_elements :
  forall m i a n p x, nth_error (m_vars m) i = Some (VarStatic (TVec p) x) ->
    (a + n <= length x -> exists v r, from_mut_slice m i a n = Ok v /\ view_type v = TVec p /\
        deref m v = Some r /\ ref_type r = TVec p /\
        length (elements (shown r)) = n /\
        (forall j, j < n -> nth_error (elements (shown r)) j = nth_error (elements (dyn_from (TVec p) x)) (a + j))) /\
    (length x < a + n -> from_mut_slice m i a n = Panic).
Proof.
  intros m i a n p x E. unfold from_mut_slice. rewrite E. destruct (Nat.leb_spec (a + n) (length x)) as [L|L].
  2:{ split; [lia|auto]. }
  split; [|lia]. intros _. exists (MutVec p (InVar i) a n), (RefVec p (firstn n (skipn a x))). cbn [view_type deref load].
  rewrite E. cbn [dyn_from vec_values].
  assert (Q : vec_try_into p (vec_from p x) = Some x) by (apply vec_into_iff; reflexivity).
  rewrite Q. repeat split; auto; cbn [shown]; rewrite !elements_from.
  - rewrite map_length, firstn_length, skipn_length. lia.
  - intros j Hj. rewrite !nth_error_map. f_equal. apply nth_slice. exact Hj.
Qed.
Print Assumptions C53_a_slice_shows_its_elements.

(** A dynamic handle gives a mutable view exactly when it gives an immutable
    one, with the same error otherwise, and never panics. *)
Theorem C53_handle_views_when_readable :
  forall b h, reach b ->
    match dyn_state_get b h with
    | Ok d => exists v, state_mut b h = Ok v /\ view_type v = dh_type h
    | Err e => state_mut b h = Err e
    | Panic => False
    end.
Proof.
  intros b h Hr. unfold dyn_state_get. destruct (state_get b (dh_type h) (dh_index h)) as [d|e|] eqn:E.
  - pose proof (C09_state_has_handle_type _ _ _ _ Hr E) as T.
    unfold state_mut. unfold state_get, tm_get in E. destruct (b_states b (dh_type h)) as [a|]; try discriminate.
    destruct (get a (dh_index h)) as [d'|]; cbn in E; try discriminate. injection E as ->.
    destruct (try_into (dh_type h) d) as [x|] eqn:Ex.
    + eexists; split; [reflexivity|]. destruct (dh_type h); reflexivity.
    + apply PropertiesDynamic.C24_try_into_fails_iff_other_type in Ex. congruence.
  - unfold state_mut. unfold state_get, tm_get in E. destruct (b_states b (dh_type h)) as [a|]; [|congruence].
    destruct (get a (dh_index h)) as [d'|]; cbn in E; congruence.
  - unfold state_get, tm_get in E. destruct (b_states b (dh_type h)) as [a|]; [|congruence].
    destruct (get a (dh_index h)) as [d'|]; cbn in E; congruence.
Qed.
Print Assumptions C53_handle_views_when_readable.

Lemma assign_wrote m v d m' : reaches m -> sound m v -> assign m v d = Wrote m' ->
  load m' (target v) = Some (PPrim d) /\ only (target v) m m' /\ reaches m' /\ sound m' v.
Proof.
  intros Hr Hs H. destruct v as [p pl|]; cbn in *; [|discriminate].
  destruct (prim_try_into p d) as [x|] eqn:E; [|discriminate]. injection H as <-.
  apply prim_into_iff in E. subst d. destruct Hs as [y Hy].
  destruct (write_spec m pl (PPrim (prim_from p x)) _ Hr Hy) as (A & B & C).
  { cbn. rewrite !prim_type_from. reflexivity. }
  split; auto. split; auto. split; auto. exists x. exact A.
Qed.

Lemma assign_at_wrote m v i d m' : reaches m -> sound m v -> assign_at m v i d = Wrote m' ->
  exists p pl off len l x, v = MutVec p pl off len /\ d = prim_from p x /\ i < len /\
    load m pl = Some (PVec (vec_from p l)) /\ off + len <= length l /\
    load m' pl = Some (PVec (vec_from p (list_set l (off + i) x))) /\ only pl m m' /\ reaches m' /\ sound m' v.
Proof.
  intros Hr Hs H. destruct v as [|p pl off len]; cbn [assign_at sound] in *; [discriminate|].
  destruct (prim_try_into p d) as [x|] eqn:E; [|discriminate].
  apply prim_into_iff in E. subst d. destruct Hs as [l [Hl L]].
  destruct (Nat.ltb_spec i len) as [Hi|]; [|discriminate].
  rewrite Hl in H. cbn [vec_values] in H.
  assert (Q : vec_try_into p (vec_from p l) = Some l) by (apply vec_into_iff; reflexivity).
  rewrite Q in H. injection H as <-.
  destruct (write_spec m pl (PVec (vec_from p (list_set l (off + i) x))) _ Hr Hl) as (A & B & C).
  { rewrite !vec_type_from. reflexivity. }
  exists p, pl, off, len, l, x.
  split; [reflexivity|]. split; [reflexivity|]. split; [exact Hi|]. split; [exact Hl|]. split; [exact L|].
  split; [exact A|]. split; [exact B|]. split; [exact C|].
  exists (list_set l (off + i) x). rewrite list_set_length. auto.
Qed.

Lemma taken_sound m pl v : reaches m -> taken m pl v -> sound m v /\ target v = pl.
Proof.
  intros Hr H. destruct (taken_spec _ _ _ Hr H) as (t & x & E & ->).
  destruct (view_of_sound _ _ _ _ E) as (A & B & _). auto.
Qed.
Lemma slice_sound m i a n v : taken_slice m i a n v -> sound m v /\ target v = InVar i.
Proof.
  unfold taken_slice, from_mut_slice. destruct (nth_error (m_vars m) i) as [[|[p|p] x]|] eqn:E; try discriminate.
  destruct (Nat.leb_spec (a + n) (length x)); [|discriminate]. intros H0. injection H0 as <-. cbn. split; auto.
  exists x. rewrite E. auto.
Qed.

(** Assigning through a view of a single value: accepted exactly for a value of
    the view's type; then the place holds it and nothing else has changed. *)
Theorem C53_assigning_through_a_view :
  forall m pl v d, reach (m_base m) -> taken m pl v ->
    (dynprim_type d = view_type v ->
       exists m', assign m v d = Wrote m' /\ load m' pl = Some (PPrim d) /\ only pl m m' /\
                  deref m' v = Some (borrow (PPrim d)) /\ reach (m_base m')) /\
    (dynprim_type d <> view_type v -> assign m v d = OtherVariant).
Proof.
  intros m pl v d Hr H. destruct (taken_sound _ _ _ Hr H) as [Hs <-]. split.
  - intros T. destruct v as [p pl|p pl off len]; cbn in T.
    2:{ destruct d; discriminate. }
    destruct (prim_is _ _ T) as [x ->].
    assert (Q : prim_try_into p (prim_from p x) = Some x) by (apply prim_into_iff; reflexivity).
    eexists. assert (W : assign m (MutPrim p pl) (prim_from p x) = Wrote (write m pl (PPrim (prim_from p x))))
      by (cbn; rewrite Q; reflexivity).
    split; [exact W|]. destruct (assign_wrote _ _ _ _ Hr Hs W) as (A & B & C & D). split; auto. split; auto.
    split; [|exact C]. cbn in A. cbn [deref]. rewrite A, Q. destruct p; reflexivity.
  - intros T. destruct v as [p pl|p pl off len]; cbn in *; auto.
    destruct (prim_try_into p d) as [x|] eqn:E; auto. apply prim_into_iff in E. subst d.
    rewrite prim_type_from in T. congruence.
Qed.
Print Assumptions C53_assigning_through_a_view.

(** Assigning to an element of a vector through a view, of the whole vector or
    of a slice of it that starts at [a] and is [n] long: accepted exactly in
    range and for a value of the element type; that element is replaced, no
    other one, and nothing outside the vector. *)
Theorem C53_assigning_to_an_element :
  forall m pl v a n i d e, reach (m_base m) -> load m pl = Some e ->
    (taken m pl v /\ a = 0 /\ n = length (elements e) \/
     exists k, pl = InVar k /\ taken_slice m k a n v) ->
    view_type v = TVec (primitive_type (view_type v)) ->
    (dynprim_type d = TPrim (primitive_type (view_type v)) -> i < n ->
       exists m' e', assign_at m v i d = Wrote m' /\ load m' pl = Some e' /\ only pl m m' /\
         prop_type e' = prop_type e /\ length (elements e') = length (elements e) /\
         (forall j, nth_error (elements e') j = if Nat.eqb j (a + i) then Some d else nth_error (elements e) j) /\
         reach (m_base m')) /\
    (dynprim_type d = TPrim (primitive_type (view_type v)) -> n <= i -> assign_at m v i d = OutOfRange) /\
    (dynprim_type d <> TPrim (primitive_type (view_type v)) -> assign_at m v i d = OtherVariant).
Proof.
  intros m pl v a n i d e Hr Hl Hk T.
  assert (Hv : exists p l, v = MutVec p pl a n /\ e = PVec (vec_from p l) /\ a + n <= length l).
  { destruct Hk as [(H & -> & Hn)|(k & -> & H)].
    - destruct (taken_spec _ _ _ Hr H) as (t & x & E & ->). rewrite E in Hl. injection Hl as <-.
      destruct t as [p|p]; cbn [view_of view_type] in T; [|discriminate].
      cbn [dyn_from] in Hn. rewrite elements_from, map_length in Hn.
      exists p, x. cbn. subst n. auto.
    - unfold taken_slice, from_mut_slice in H.
      destruct (nth_error (m_vars m) k) as [[|[p|p] x]|] eqn:E; try discriminate.
      destruct (Nat.leb_spec (a + n) (length x)); [|discriminate]. injection H as <-.
      cbn in Hl. rewrite E in Hl. injection Hl as <-. exists p, x. auto. }
  destruct Hv as (p & l & -> & -> & L). clear Hk T. cbn [view_type primitive_type].
  assert (Hs : sound m (MutVec p pl a n)) by (exists l; auto).
  assert (Q : vec_try_into p (vec_from p l) = Some l) by (apply vec_into_iff; reflexivity).
  split; [|split].
  - intros Td Hi. destruct (prim_is _ _ Td) as [x ->].
    assert (Qx : prim_try_into p (prim_from p x) = Some x) by (apply prim_into_iff; reflexivity).
    assert (W : assign_at m (MutVec p pl a n) i (prim_from p x) =
                Wrote (write m pl (PVec (vec_from p (list_set l (a + i) x))))).
    { cbn [assign_at]. rewrite Qx, Hl. cbn [vec_values]. rewrite Q.
      destruct (Nat.ltb_spec i n); [reflexivity|lia]. }
    destruct (write_spec m pl (PVec (vec_from p (list_set l (a + i) x))) _ Hr Hl) as (A & B & C).
    { rewrite !vec_type_from. reflexivity. }
    exists (write m pl (PVec (vec_from p (list_set l (a + i) x)))), (PVec (vec_from p (list_set l (a + i) x))).
    split; [exact W|]. split; [exact A|]. split; [exact B|].
    rewrite !vec_type_from, !elements_from, !map_length, list_set_length.
    split; [reflexivity|]. split; [reflexivity|]. split; [|exact C].
    intros j. rewrite !nth_error_map, nth_error_list_set, (Nat.eqb_sym j).
    destruct (Nat.eqb (a + i) j); [|reflexivity].
    destruct (Nat.ltb_spec (a + i) (length l)); [reflexivity|lia].
  - intros Td Hi. destruct (prim_is _ _ Td) as [x ->].
    assert (Qx : prim_try_into p (prim_from p x) = Some x) by (apply prim_into_iff; reflexivity).
    cbn [assign_at]. rewrite Qx. destruct (Nat.ltb_spec i n); [lia|reflexivity].
  - intros Td. cbn [assign_at]. destruct (prim_try_into p d) as [x|] eqn:E; auto.
    apply prim_into_iff in E. subst d. rewrite prim_type_from in Td. congruence.
Qed.
Print Assumptions C53_assigning_to_an_element.

(** Whatever is done through a view, however often: only its place changes, and
    the value there keeps its type and, for a vector, its length; through a view
    of a slice only the elements of the slice change.  In particular a vector
    state reached through a dynamic handle cannot grow or shrink. *)
Theorem C53_views_keep_type_and_length :
  forall m pl v os m', reach (m_base m) ->
    (taken m pl v \/ exists k a n, pl = InVar k /\ taken_slice m k a n v) ->
    writes v m os m' ->
    exists d d', load m pl = Some d /\ load m' pl = Some d' /\
      prop_type d' = prop_type d /\ length (elements d') = length (elements d) /\
      only pl m m' /\ reach (m_base m').
Proof.
  intros m pl v os m' Hr Hk W.
  assert (Hs : sound m v /\ target v = pl).
  { destruct Hk as [H|(k & a & n & -> & H)]; [eapply taken_sound|eapply slice_sound]; eauto. }
  destruct Hs as [Hs <-]. clear Hk.
  induction W as [m|m o m1 os m' Hd W IH].
  - destruct (sound_shown _ _ Hs) as (r & d & _ & L & _). exists d, d. split; [exact L|]. split; [exact L|].
    split; [reflexivity|]. split; [reflexivity|]. split; [|exact Hr]. unfold only. auto.
  - assert (K : exists d d1, load m (target v) = Some d /\ load m1 (target v) = Some d1 /\
        prop_type d1 = prop_type d /\ length (elements d1) = length (elements d) /\
        only (target v) m m1 /\ reaches m1 /\ sound m1 v).
    { destruct o as [d|i d]; cbn in Hd.
      - destruct (assign_wrote _ _ _ _ Hr Hs Hd) as (A & B & C & D).
        destruct (sound_shown _ _ Hs) as (r & d0 & _ & L & _ & T0).
        destruct (sound_shown _ _ D) as (r1 & d1 & _ & L1 & _ & T1).
        exists d0, d1. split; [exact L|]. split; [exact L1|]. split; [congruence|]. split; auto.
        destruct v as [p pl|]; [|discriminate]. cbn [target view_type] in *. rewrite A in L1. injection L1 as <-.
        destruct d0 as [q|q]; [reflexivity|]. destruct q; discriminate.
      - destruct (assign_at_wrote _ _ _ _ _ Hr Hs Hd) as (p & pl & off & len & l & x & -> & -> & Hi & L & Hlen & L1 & O & R1 & S1).
        exists (PVec (vec_from p l)), (PVec (vec_from p (list_set l (off + i) x))). cbn [target].
        split; [exact L|]. split; [exact L1|]. rewrite !vec_type_from, !elements_from, !map_length, list_set_length.
        auto 10. }
    destruct K as (d & d1 & A1 & A2 & A3 & A4 & (O1 & O2 & O3 & O4) & R1 & S1).
    destruct (IH R1 S1) as (e1 & d' & B1 & B2 & B3 & B4 & (P1 & P2 & P3 & P4) & R').
    rewrite A2 in B1. injection B1 as <-. exists d, d'. split; [exact A1|]. split; [exact B2|].
    split; [congruence|]. split; [congruence|]. split; [|exact R'].
    unfold only. split; [|split; [congruence|split; congruence]].
    intros pl' Hn. rewrite P1 by exact Hn. apply O1. exact Hn.
Qed.
Print Assumptions C53_views_keep_type_and_length.

Theorem C53_slices_keep_the_rest :
  forall m k a n v os m' d d', reach (m_base m) -> taken_slice m k a n v -> writes v m os m' ->
    load m (InVar k) = Some d -> load m' (InVar k) = Some d' ->
    forall j, j < a \/ a + n <= j -> nth_error (elements d') j = nth_error (elements d) j.
Proof.
  intros m k a n v os m' d d' Hr Hk W Hl Hl' j Hj.
  destruct (slice_sound _ _ _ _ _ Hk) as [Hs Ht].
  assert (Hv : exists p, v = MutVec p (InVar k) a n).
  { unfold taken_slice, from_mut_slice in Hk.
    destruct (nth_error (m_vars m) k) as [[|[p|p] x]|] eqn:E; try discriminate.
    destruct (Nat.leb_spec (a + n) (length x)); [|discriminate]. injection Hk as <-. eauto. }
  destruct Hv as [p ->]. clear Hk Ht. revert d Hl.
  induction W as [m|m o m1 os m' Hd W IH]; intros d Hl.
  - rewrite Hl in Hl'. injection Hl' as <-. reflexivity.
  - destruct o as [x|i x]; cbn [does] in Hd; [discriminate|].
    destruct (assign_at_wrote _ _ _ _ _ Hr Hs Hd) as (p0 & pl & off & len & l & y & E & -> & Hi & L & Hlen & L1 & O & R1 & S1).
    assert (p0 = p) by congruence. assert (pl = InVar k) by congruence. assert (off = a) by congruence.
    assert (len = n) by congruence. subst p0 pl off len. clear E.
    rewrite (IH R1 Hl' S1 _ L1). rewrite L in Hl. injection Hl as <-.
    rewrite !elements_from, !nth_error_map. f_equal. apply nth_error_list_set_neq. lia.
Qed.
Print Assumptions C53_slices_keep_the_rest.

(** Two views are equal iff what they show is equal, as dynamic values. *)
Theorem C53_views_compare_what_they_show :
  forall m pl v pl' v' d d', reach (m_base m) -> taken m pl v -> taken m pl' v' ->
    load m pl = Some d -> load m pl' = Some d' ->
    view_eqb m v v' = dynprop_eqb d d'.
Proof.
  intros m pl v pl' v' d d' Hr H H' Hl Hl'. unfold view_eqb.
  destruct (C53_a_view_shows_the_value _ _ _ Hr H) as (e & L & _ & ->).
  destruct (C53_a_view_shows_the_value _ _ _ Hr H') as (e' & L' & _ & ->).
  assert (e = d) by congruence. assert (e' = d') by congruence. subst.
  apply PropertiesDynamic.C24_borrow_preserves_equality.
Qed.
Print Assumptions C53_views_compare_what_they_show.

(** The hypotheses are met: a reachable baseline with a vector state, a dynamic
    variable and a static one, viewed and written. *)
Definition vwC : contract_ty :=
  mkCty (mkCid "ex.views" (1%N, 0%N, 0%N)) [TVec TU16; TPrim TString] ["v"; "s"] [] [].
Definition vwOps : list bop :=
  [BRegister vwC; BCreate (mkCinst vwC exH) [PVec (WU16 [1; 2; 3]%Z); PPrim (VString "x")] []].
Definition vwB : baseline := snd (brun (baseline_new KMain) vwOps).
Example vwB_reach : reach vwB.
Proof.
  exists KMain, vwOps. apply bops_ok_steps.
  repeat match goal with |- bops_ok _ _ /\ _ => split | |- _ /\ _ => split | |- True => exact I end;
    vm_compute; repeat constructor; try discriminate; intuition discriminate.
Qed.
Definition vwM : memory :=
  mkMem vwB [VarDyn (PPrim (VU8 7)); VarStatic (TVec TI32) [4; 5; 6; 7]%Z; VarDyn (PPrim (VU8 7))].
Definition vwH : dyn_handle := mkDh (TVec TU16) (mkIndex 0 0%N).

Definition after (u : used) : memory := match u with Wrote m => m | _ => vwM end.

Example views_example :
  (exists v, taken vwM (InVar 0) v /\ load (after (assign vwM v (VU8 9))) (InVar 0) = Some (PPrim (VU8 9)) /\
     load (after (assign vwM v (VU8 9))) (InVar 2) = Some (PPrim (VU8 7)) /\
     assign vwM v (VI8 9) = OtherVariant) /\
  (exists v, taken vwM (InState (TVec TU16) (mkIndex 0 0%N)) v /\
     load (after (assign_at vwM v 1 (VU16 20))) (InState (TVec TU16) (mkIndex 0 0%N))
       = Some (PVec (WU16 [1; 20; 3]%Z)) /\
     assign_at vwM v 3 (VU16 20) = OutOfRange) /\
  (exists v, taken_slice vwM 1 1 2 v /\
     load (after (assign_at vwM v 0 (VI32 50))) (InVar 1) = Some (PVec (WI32 [4; 50; 6; 7]%Z)) /\
     assign_at vwM v 2 (VI32 50) = OutOfRange) /\
  (exists v w, taken vwM (InVar 0) v /\ taken vwM (InVar 2) w /\ v <> w /\ view_eqb vwM v w = true).
Proof.
  split; [|split; [|split]].
  - eexists. split; [apply by_borrow_mut; reflexivity|]. vm_compute. auto.
  - eexists. split; [apply (by_handle vwM vwH); vm_compute; reflexivity|]. vm_compute. auto.
  - eexists. split; [vm_compute; reflexivity|]. vm_compute. auto.
  - eexists _, _. split; [apply by_borrow_mut; reflexivity|]. split; [apply by_borrow_mut; reflexivity|].
    split; [discriminate|reflexivity].
Qed.
