(** A client's table of state handles obtained from one baseline: pairwise
    different, each reading its own value.  Used for the demo programs. *)
From Verif Require Export BaselineMono.
Open Scope nat_scope.

Definition tlook (b : baseline) (th : ptype * index) : option dynprop := tm_look (b_states b) (fst th) (snd th).
Record table (b : baseline) (hs : list (ptype * index)) (vs : list dynprop) : Prop := {
  tb_inv : binv b;
  tb_nodup : NoDup hs;
  tb_vals : Forall2 (fun th v => tlook b th = Some v) hs vs
}.

Lemma Forall2_nth {A B} (R : A -> B -> Prop) l m : Forall2 R l m ->
  forall i x, nth_error l i = Some x -> exists y, nth_error m i = Some y /\ R x y.
Proof.
  induction 1 as [|x y l m Hxy H IH]; intros [|i] z Hz; cbn in Hz; try discriminate.
  - injection Hz as <-. exists y. auto.
  - destruct (IH i z Hz) as (w & Hw & Hr). exists w. auto.
Qed.
Lemma nth_Forall2 {A B} (R : A -> B -> Prop) l m : length l = length m ->
  (forall i x y, nth_error l i = Some x -> nth_error m i = Some y -> R x y) -> Forall2 R l m.
Proof.
  revert m; induction l as [|x l IH]; intros [|y m] L H; cbn in L; try discriminate; constructor.
  - apply (H 0); reflexivity.
  - apply IH; [lia|]. intros i a c Ha Hc. apply (H (S i)); assumption.
Qed.
Lemma Forall2_len {A B} (R : A -> B -> Prop) l m : Forall2 R l m -> length l = length m.
Proof. induction 1; cbn; auto. Qed.

Lemma table_empty b : binv b -> table b [] [].
Proof. intros H. constructor; auto using NoDup_nil. Qed.

Lemma table_get b hs vs i t h : table b hs vs -> nth_error hs i = Some (t, h) ->
  exists v, nth_error vs i = Some v /\ state_get b t h = Ok v /\ prop_type v = t.
Proof.
  intros T Hi. destruct (Forall2_nth _ _ _ (tb_vals _ _ _ T) i _ Hi) as (v & Hv & E).
  exists v. split; auto. split; [apply state_get_ok; exact E|]. eapply (bi_st_ty _ (tb_inv _ _ _ T)); exact E.
Qed.

Lemma table_set b hs vs i h v : table b hs vs -> nth_error hs i = Some (prop_type v, h) ->
  exists m, state_set b h v = (Ok tt, with_states b m) /\ table (with_states b m) hs (list_set vs i v).
Proof.
  intros T Hi. destruct (Forall2_nth _ _ _ (tb_vals _ _ _ T) i _ Hi) as (v0 & Hv & E).
  unfold tlook in E; cbn in E.
  destruct (state_set_spec b h v (tb_inv _ _ _ T)) as [[Hn _]|[_ (m' & Es & Hw & Hl)]]; [congruence|].
  exists m'. split; auto. constructor.
  - eapply state_set_binv; [exact (tb_inv _ _ _ T)|exact Es].
  - exact (tb_nodup _ _ _ T).
  - apply nth_Forall2.
    + rewrite list_set_length. exact (Forall2_len _ _ _ (tb_vals _ _ _ T)).
    + intros j [t2 h2] y Hj Hy. unfold tlook; cbn [fst snd b_states with_states]. rewrite Hl.
      rewrite nth_error_list_set in Hy.
      destruct (Nat.eqb_spec i j) as [->|Hne].
      * rewrite Hi in Hj. injection Hj as <- <-. rewrite tm_same_refl.
        assert (j < length vs) by (apply nth_error_Some; congruence).
        destruct (Nat.ltb_spec j (length vs)); [congruence|lia].
      * destruct (tm_same (prop_type v) h t2 h2) eqn:S.
        { apply tm_same_true in S. destruct S as [<- <-]. exfalso. apply Hne.
          pose proof (proj1 (NoDup_nth_error hs) (tb_nodup _ _ _ T)) as ND.
          apply ND; [|congruence]. apply nth_error_Some. congruence. }
        destruct (Forall2_nth _ _ _ (tb_vals _ _ _ T) j _ Hj) as (y' & Hy' & E'). unfold tlook in E'; cbn in E'. congruence.
Qed.

(** The typed handles of a new object. *)
Definition new_handles (c : contract_inst) (ob : object) : list (ptype * index) :=
  combine (ct_states (ci_ty c)) (o_states ob).

Lemma nth_combine {A B} (l : list A) (m : list B) i x : nth_error (combine l m) i = Some x ->
  nth_error l i = Some (fst x) /\ nth_error m i = Some (snd x).
Proof.
  revert m i; induction l as [|a l IH]; intros [|b m] [|i] H; cbn in H; try discriminate.
  - injection H as <-. auto.
  - apply IH in H. exact H.
Qed.
Lemma combine_nth_error {A B} (l : list A) (m : list B) i x y :
  nth_error l i = Some x -> nth_error m i = Some y -> nth_error (combine l m) i = Some (x, y).
Proof.
  revert m i; induction l as [|a l IH]; intros [|b m] [|i] H1 H2; cbn in *; try discriminate.
  - congruence.
  - auto.
Qed.

Lemma table_create b c vs' hs vs : table b hs vs -> con_at b (ci_handle c) <> None ->
  map prop_type vs' = ct_states (ci_ty c) -> ct_chans (ci_ty c) = [] ->
  exists o ob b', object_create b c vs' [] = (Ok o, b') /\
    created b c vs' [] o ob b' /\ obj_at b' o = Some ob /\ obj_at b o = None /\
    con_at b' (ci_handle c) <> None /\
    length (o_states ob) = length vs' /\
    table b' (hs ++ new_handles c ob) (vs ++ vs').
Proof.
  intros T Hc Ht Hch. pose proof (tb_inv _ _ _ T) as Hb.
  destruct (create_spec b c vs' [] Hb) as [[Hn _]|[_ (o & ob & b' & E & Cr)]].
  { exfalso. apply Hn. split; [exact Hc|]. split; [exact Ht|]. rewrite Hch. reflexivity. }
  exists o, ob, b'. split; [exact E|]. split; [exact Cr|].
  pose proof (insert_get _ _ _ _ o (bi_obj _ Hb) (cr_insert _ _ _ _ _ _ _ Cr)) as G.
  destruct (index_eqb_spec o o) as [_|]; [|congruence].
  pose proof (is_len _ _ _ _ _ (cr_st _ _ _ _ _ _ _ Cr)) as L.
  split; [exact G|]. split; [exact (insert_fresh _ _ _ _ (bi_obj _ Hb) (cr_insert _ _ _ _ _ _ _ Cr))|].
  split.
  { destruct (cr_con _ _ _ _ _ _ _ Cr) as (cd & Hg & Hs).
    unfold con_at. rewrite (set_get _ _ _ _ _ (bi_con _ Hb) Hs).
    destruct (index_eqb_spec (ci_handle c) (ci_handle c)); [discriminate|congruence]. }
  split; [exact L|].
  assert (Nth : forall i t h, nth_error (new_handles c ob) i = Some (t, h) ->
            exists x, nth_error vs' i = Some x /\ prop_type x = t /\ nth_error (o_states ob) i = Some h).
  { intros i t h H. apply nth_combine in H. destruct H as [H1 H2]. cbn in *.
    rewrite <- Ht in H1. rewrite nth_error_map in H1. destruct (nth_error vs' i) as [x|]; [|discriminate].
    injection H1 as H1. exists x. auto. }
  constructor.
  - eapply created_binv; eauto.
  - apply NoDup_nth_error. intros i j Hi Hij.
    assert (Old : forall k th, nth_error hs k = Some th -> tlook b th <> None).
    { intros k th Hk. destruct (Forall2_nth _ _ _ (tb_vals _ _ _ T) k _ Hk) as (v & _ & Ev). congruence. }
    assert (New : forall k th, nth_error (new_handles c ob) k = Some th -> tlook b th = None).
    { intros k [t h] Hk. destruct (Nth _ _ _ Hk) as (x & Hx & <- & Hh).
      apply (is_new _ _ _ _ _ (cr_st _ _ _ _ _ _ _ Cr) k x h Hx Hh). }
    destruct (nth_error (hs ++ new_handles c ob) i) as [th|] eqn:Ei; [|apply nth_error_Some in Hi; congruence].
    symmetry in Hij.
    destruct (Nat.lt_ge_cases i (length hs)) as [Li|Li], (Nat.lt_ge_cases j (length hs)) as [Lj|Lj].
    + rewrite nth_error_app1 in Ei, Hij by lia.
      apply (proj1 (NoDup_nth_error hs) (tb_nodup _ _ _ T)); [lia|congruence].
    + rewrite nth_error_app1 in Ei by lia. rewrite nth_error_app2 in Hij by lia.
      exfalso. apply (Old _ _ Ei). apply (New _ _ Hij).
    + rewrite nth_error_app2 in Ei by lia. rewrite nth_error_app1 in Hij by lia.
      exfalso. apply (Old _ _ Hij). apply (New _ _ Ei).
    + rewrite nth_error_app2 in Ei, Hij by lia. destruct th as [t h].
      destruct (Nth _ _ _ Ei) as (x & Hx & Tx & Hh). destruct (Nth _ _ _ Hij) as (y & Hy & Ty & Hh').
      assert (i - length hs = j - length hs); [|lia].
      eapply (is_inj _ _ _ _ _ (cr_st _ _ _ _ _ _ _ Cr)); eauto. congruence.
  - apply Forall2_app.
    + pose proof (tb_vals _ _ _ T) as F. clear -F Cr. induction F as [|th v hs vs Hv F IH]; constructor; auto.
      apply (is_old _ _ _ _ _ (cr_st _ _ _ _ _ _ _ Cr)). exact Hv.
    + apply nth_Forall2.
      * unfold new_handles. rewrite combine_length, <- Ht, map_length. lia.
      * intros i [t h] y H1 H2. destruct (Nth _ _ _ H1) as (x & Hx & <- & Hh).
        assert (x = y) by congruence. subst y.
        apply (is_new _ _ _ _ _ (cr_st _ _ _ _ _ _ _ Cr) i x h Hx Hh).
Qed.
