(** C09, the dynamic side: handles and ids that carry their type at run time agree
    with the typed ones. *)
From Verif Require Import BaseProofs ArenaProofs Dynamic BaselineSpec BaselineProofs PropertiesBaseline.
From Verif Require Import Views DynEnum Indexing.
From Verif Require PropertiesDynamic PropertiesViews.
Import Coq.Strings.String.StringSyntax.
Open Scope string_scope.
Open Scope list_scope.
Open Scope nat_scope.

Lemma apply_from {A B} t (a : A) (f : ptype -> A -> B) : apply_to_dyn (enum_from t a) f = f t a.
Proof. destruct t as [p|p]; destruct p; reflexivity. Qed.

(** Every dynamic handle or id comes from exactly one typed one, whose type it
    reports; converting back gives it, and converting to any other type fails. *)
Theorem C09_dynamic_handles_are_typed :
  forall (A : Type) (e : dyn_enum A),
    exists a, e = enum_from (enum_type e) a /\ enum_try_into (enum_type e) e = Some a /\
      (forall t, t <> enum_type e -> enum_try_into t e = None) /\
      (forall t x, e = enum_from t x -> t = enum_type e /\ x = a).
Proof.
  intros A e. destruct e as [s|s]; destruct s as [a|a|a|a|a|a|a|a|a|a|a|a|a|a]; exists a;
    (split; [reflexivity|]); (split; [reflexivity|]);
    (split; [intros [p|p] H; try reflexivity; destruct p; try reflexivity; exfalso; apply H; reflexivity|
     intros [p|p] x H; try discriminate; destruct p; try discriminate; injection H as ->; split; reflexivity]).
Qed.
Print Assumptions C09_dynamic_handles_are_typed.

(** Reading through a dynamic state handle: a reference of the handle's type that
    shows what the typed handle reads, or the typed handle's error. *)
Theorem C09_dynamic_state_handle_agrees :
  forall b t h, reach b ->
    match state_get b t h with
    | Ok d => exists x : rtype t, d = dyn_from t x /\ state_handle_get b (enum_from t h) = Ok (ref_from t x)
    | Err e => state_handle_get b (enum_from t h) = Err e
    | Panic => False
    end.
Proof.
  intros b t h Hr. unfold state_handle_get. rewrite apply_from.
  destruct (state_get b t h) as [d|e|] eqn:E.
  - pose proof (C09_state_has_handle_type _ _ _ _ Hr E) as T.
    destruct (try_into t d) as [x|] eqn:Ex.
    + exists x. split; auto. apply PropertiesDynamic.C24_try_into_sound. exact Ex.
    + apply PropertiesDynamic.C24_try_into_fails_iff_other_type in Ex. contradiction.
  - reflexivity.
  - unfold state_get, tm_get in E. destruct (b_states b t) as [a|]; [|discriminate].
    destruct (get a h); discriminate.
Qed.
Print Assumptions C09_dynamic_state_handle_agrees.

(** Likewise mutably: the view is of the very state the typed handle names. *)
Theorem C09_dynamic_state_handle_mut_agrees :
  forall m t h, reach (m_base m) ->
    match state_get (m_base m) t h with
    | Ok d => exists v, state_handle_get_mut (m_base m) (enum_from t h) = Ok v /\ view_type v = t /\
                PropertiesViews.taken m (InState t h) v /\ deref m v = Some (borrow d)
    | Err e => state_handle_get_mut (m_base m) (enum_from t h) = Err e
    | Panic => False
    end.
Proof.
  intros m t h Hr. unfold state_handle_get_mut. rewrite apply_from.
  pose proof (PropertiesViews.C53_handle_views_when_readable (m_base m) (mkDh t h) Hr) as K.
  unfold dyn_state_get in K. cbn [dh_type dh_index] in K.
  destruct (state_get (m_base m) t h) as [d|e|] eqn:E; auto.
  destruct K as (v & Hv & T). exists v. split; auto. split; auto.
  pose proof (PropertiesViews.by_handle m (mkDh t h) v Hv) as Tk. split; [exact Tk|].
  destruct (PropertiesViews.C53_a_view_shows_the_value _ _ _ Hr Tk) as (d' & L & _ & D).
  cbn in L. rewrite E in L. injection L as <-. exact D.
Qed.
Print Assumptions C09_dynamic_state_handle_mut_agrees.

(** Channels: the dynamic handle shows the typed handle's channel, at its type. *)
Theorem C09_dynamic_channel_handle_agrees :
  forall b t h,
    match channel_get b t h with
    | Ok c => channel_handle_get b (enum_from t h) = Ok (ChanRef t c)
    | Err e => channel_handle_get b (enum_from t h) = Err e
    | Panic => False
    end.
Proof.
  intros b t h. unfold channel_handle_get. rewrite apply_from.
  destruct (channel_get b t h) as [c|e|] eqn:E; try reflexivity.
  unfold channel_get, tm_get in E. destruct (b_channels b t) as [a|]; [|discriminate].
  destruct (get a h); discriminate.
Qed.
Print Assumptions C09_dynamic_channel_handle_agrees.

(** Two dynamic handles are equal iff they have the same type and name the same slot
    and generation: equal numbers of different types are different handles. *)
Theorem C09_dynamic_handles_compare :
  forall x y : dyn_enum index, enum_eqb index_eqb x y = true <-> x = y.
Proof.
  intros x y. destruct x as [s|s], y as [r|r]; cbn; try (split; discriminate);
    destruct s as [a|a|a|a|a|a|a|a|a|a|a|a|a|a], r as [b|b|b|b|b|b|b|b|b|b|b|b|b|b]; cbn; try (split; discriminate);
    rewrite index_eqb_eq; (split; [intros ->; reflexivity|congruence]).
Qed.
Print Assumptions C09_dynamic_handles_compare.

(** The ids a contract hands out dynamically are its typed ids: field [i] of type
    [t] gives the id of type [t], index [i] and the contract's handle; past the end
    there is none. *)
Theorem C09_dynamic_ids_are_typed :
  forall c i,
    dyn_state_id c i = match nth_error (ct_states (ci_ty c)) i with
                       | Some t => Some (enum_from t (mkPid t i (ci_handle c)))
                       | None => None
                       end /\
    dyn_chan_id c i = match nth_error (ct_chans (ci_ty c)) i with
                      | Some t => Some (enum_from t (mkPid t i (ci_handle c)))
                      | None => None
                      end.
Proof.
  assert (K : forall c i t, prop_id_new c i t = enum_from t (mkPid t i c))
    by (intros c i [p|p]; destruct p; reflexivity).
  intros c i. unfold dyn_state_id, dyn_chan_id. split.
  - destruct (nth_error (ct_states (ci_ty c)) i); cbn; [rewrite K|]; reflexivity.
  - destruct (nth_error (ct_chans (ci_ty c)) i); cbn; [rewrite K|]; reflexivity.
Qed.
Print Assumptions C09_dynamic_ids_are_typed.

(** A contract's id binds and reads the same whether typed or dynamic. *)
Theorem C09_dynamic_ids_bind_alike :
  forall b c i o e, dyn_state_id c i = Some e ->
    ci_state_id c i = Some (apply_to_dyn e (fun _ id => id)) /\
    forall h, apply_to_dyn e (fun _ id => bind_state b id o) = Ok h ->
      enum_type (apply_to_dyn e (fun t _ => enum_from t h)) = enum_type e /\
      forall id, ci_state_id c i = Some id -> bind_state b id o = Ok h.
Proof.
  intros b c i o e H. destruct (C09_dynamic_ids_are_typed c i) as [K _]. rewrite K in H. clear K.
  unfold ci_state_id. destruct (nth_error (ct_states (ci_ty c)) i) as [t|]; [|discriminate].
  injection H as <-. rewrite apply_from. cbn [option_map].
  assert (D : dyn_id_new (ci_handle c) i t = mkPid t i (ci_handle c)) by reflexivity.
  rewrite D. split; [reflexivity|]. intros h. rewrite !apply_from. intros B. split.
  - destruct t as [p|p]; destruct p; reflexivity.
  - intros id E. injection E as <-. exact B.
Qed.
Print Assumptions C09_dynamic_ids_bind_alike.

(** [baseline[h]] is the named accessor, except that a failure is a panic, which
    leaves the baseline as it was. *)
Theorem C09_indexing_is_access_or_panic :
  forall b t h, reach b ->
    (forall v, index_state b t h = Ok v <-> state_get b t h = Ok v) /\
    (index_state b t h = Panic <-> forall v, state_get b t h <> Ok v) /\
    (forall c, index_channel b t h = Ok c <-> channel_get b t h = Ok c) /\
    (index_channel b t h = Panic <-> forall c, channel_get b t h <> Ok c) /\
    (forall ob, index_object b h = Ok ob <-> obj_at b h = Some ob) /\
    (index_object b h = Panic <-> obj_at b h = None).
Proof.
  intros b t h Hr. unfold index_state, index_channel, index_object, obj_at.
  split; [|split; [|split; [|split; [|split]]]].
  - intros v. destruct (state_get b t h); cbn; split; congruence.
  - destruct (state_get b t h) as [v| |]; cbn; (split; intros H; try discriminate; try congruence; auto); try (exfalso; eapply H; reflexivity).
  - intros v. destruct (channel_get b t h); cbn; split; congruence.
  - destruct (channel_get b t h) as [v| |]; cbn; (split; intros H; try discriminate; try congruence; auto); try (exfalso; eapply H; reflexivity).
  - intros ob. unfold index_op. destruct (get (b_objects b) h); split; congruence.
  - unfold index_op. destruct (get (b_objects b) h); split; congruence.
Qed.
Print Assumptions C09_indexing_is_access_or_panic.

Theorem C09_indexed_writes_are_writes_or_panic :
  forall b h, reach b ->
    (forall v, (exists v0, state_get b (prop_type v) h = Ok v0) ->
       index_state_set b h v = state_set b h v /\ fst (state_set b h v) = Ok tt) /\
    (forall v, (forall v0, state_get b (prop_type v) h <> Ok v0) -> index_state_set b h v = (Panic, b)) /\
    (forall t ks, (exists c, channel_get b t h = Ok c) ->
       index_channel_set_keys b t h ks = channel_set_keys b t h ks /\ fst (channel_set_keys b t h ks) = Ok tt) /\
    (forall t ks, (forall c, channel_get b t h <> Ok c) -> index_channel_set_keys b t h ks = (Panic, b)) /\
    (forall w, obj_at b h <> None ->
       index_object_set_warp b h w = object_set_warp b h w /\ fst (object_set_warp b h w) = Ok tt) /\
    (forall w, obj_at b h = None -> index_object_set_warp b h w = (Panic, b)).
Proof.
  intros b h Hr. unfold index_state_set, index_channel_set_keys, index_object_set_warp, obj_at.
  split; [|split; [|split; [|split; [|split]]]].
  - intros v [v0 H]. destruct (state_set b h v) as [r b'] eqn:E.
    destruct (C09_write_succeeds_iff_readable _ _ _ _ _ Hr E) as (A & _ & _ & _).
    destruct r as [[]| |]; cbn; auto; exfalso;
      (assert (X : false = true) by (apply A; eauto); discriminate).
  - intros v H. destruct (state_set b h v) as [r b'] eqn:E.
    destruct (C09_write_succeeds_iff_readable _ _ _ _ _ Hr E) as (A & B & _ & _).
    destruct r as [[]| |]; cbn.
    + exfalso. destruct A as [A _]. destruct (A eq_refl) as [v0 E0]. exact (H _ E0).
    + rewrite B; auto.
    + rewrite B; auto.
  - intros t ks [c H]. unfold channel_get, tm_get in H. unfold channel_set_keys.
    destruct (b_channels b t) as [a|]; [|discriminate].
    destruct (get a h) as [c'|] eqn:Eg; [|discriminate].
    destruct (set a h (keyframes_set c' ks)) as [a'|] eqn:Es; [cbn; auto|].
    apply set_none in Es. congruence.
  - intros t ks H. unfold channel_get, tm_get in H. unfold channel_set_keys.
    destruct (b_channels b t) as [a|]; [|reflexivity].
    destruct (get a h) as [c'|] eqn:Eg; [|reflexivity]. exfalso. eapply H. reflexivity.
  - intros w H. unfold object_set_warp, index_op, index_set_op.
    destruct (get (b_objects b) h) as [ob|] eqn:Eg; [|contradiction].
    destruct (set (b_objects b) h (mkObject (o_states ob) (o_channels ob) (o_contract ob) w)) as [a'|] eqn:Es; [cbn; auto|].
    apply set_none in Es. congruence.
  - intros w H. unfold index_op. rewrite H. reflexivity.
Qed.
Print Assumptions C09_indexed_writes_are_writes_or_panic.

Example dynamic_handle_example :
  state_handle_get exB (enum_from (TPrim TU8) (mkIndex 0 0%N)) = Ok (RefPrim TU8 7%Z) /\
  state_handle_get exB (enum_from (TPrim TU16) (mkIndex 0 0%N)) = Err ENoArena /\
  enum_eqb index_eqb (enum_from (TPrim TU8) exH) (enum_from (TVec TU8) exH) = false /\
  dyn_state_id (mkCinst exC exH) 1 = Some (EPrim (EString (mkPid (TPrim TString) 1 exH))) /\
  dyn_state_id (mkCinst exC exH) 3 = None /\
  index_state exB (TPrim TU8) (mkIndex 0 0%N) = Ok (PPrim (VU8 7)) /\
  index_state exB (TPrim TU8) (mkIndex 0 1%N) = Panic /\
  exists c, channel_handle_get exB (enum_from (TPrim TF32) (mkIndex 1 0%N)) = Ok (ChanRef (TPrim TF32) c).
Proof. vm_compute. repeat split; auto. eexists. reflexivity. Qed.
