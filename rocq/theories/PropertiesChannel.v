(** C22, C23: channels. *)
From Verif Require Import BaselineProofs BaselineMono.
Open Scope nat_scope.

(** Keyframe times in non-decreasing order: for keyframes [i < j] the time of [i]
    is not NaN-incomparable to and not greater than that of [j]. *)
Definition time_le (a b : keyframe) : Prop :=
  exists x y, f64_key (k_time a) = Some x /\ f64_key (k_time b) = Some y /\ (x <= y)%Z.
Definition time_sorted (ks : list keyframe) : Prop :=
  forall i j a b, i < j -> nth_error ks i = Some a -> nth_error ks j = Some b -> time_le a b.
Definition no_nan (ks : list keyframe) : Prop :=
  forall k, In k ks -> f64_key (k_time k) <> None.

Lemma no_nan_total ks : no_nan ks -> total_preorder key_cmp ks.
Proof.
  intros H. split.
  - intros a b Ha Hb. apply H in Ha. apply H in Hb. unfold key_cmp, f64_partial_cmp.
    destruct (f64_key (k_time a)), (f64_key (k_time b)); try congruence. rewrite Z.compare_antisym. reflexivity.
  - intros a b c Ha Hb Hc. apply H in Ha. apply H in Hb. apply H in Hc. unfold key_cmp, f64_partial_cmp.
    destruct (f64_key (k_time a)), (f64_key (k_time b)), (f64_key (k_time c)); try congruence.
    rewrite !Z.compare_gt_iff. lia.
Qed.

Lemma sorted_by_nth {A} (cmp : A -> A -> comparison) l :
  sorted_by cmp l -> forall i j a b, i < j -> nth_error l i = Some a -> nth_error l j = Some b -> cmp a b <> Gt.
Proof.
  induction l as [|x l IH]; cbn; intros H [|i] [|j] a b Hij Ha Hb; try discriminate; try lia.
  - injection Ha as <-. destruct H as [H _]. rewrite Forall_forall in H. apply H. eapply nth_error_In; eauto.
  - destruct H as [_ H]. eapply (IH H i j); eauto. lia.
Qed.

(** ** C22 *)
Theorem C22_new_loses_nothing :
  forall t keys c, channel_new_rel t keys c -> ch_type c = t /\ Permutation keys (ch_keys c).
Proof. intros t keys c [Ht [Hp _]]. auto. Qed.
Print Assumptions C22_new_loses_nothing.

Theorem C22_new_sorts :
  forall t keys c, channel_new_rel t keys c -> no_nan keys -> time_sorted (ch_keys c).
Proof.
  intros t keys c [Ht [Hp Hs]] Hn i j a b Hij Ha Hb.
  pose proof (sorted_by_nth _ _ (Hs (no_nan_total _ Hn)) i j a b Hij Ha Hb) as Hc.
  assert (Ia : In a keys) by (eapply Permutation_in; [apply Permutation_sym; eauto|eapply nth_error_In; eauto]).
  assert (Ib : In b keys) by (eapply Permutation_in; [apply Permutation_sym; eauto|eapply nth_error_In; eauto]).
  apply Hn in Ia. apply Hn in Ib. unfold key_cmp, f64_partial_cmp in Hc. unfold time_le.
  destruct (f64_key (k_time a)) as [x|], (f64_key (k_time b)) as [y|]; try congruence.
  exists x, y. repeat split; auto.
Qed.
Print Assumptions C22_new_sorts.

(** Not vacuous: the sort's contract is satisfiable for every NaN-free input
    (insertion sort meets it). *)
Lemma key_insert_perm k l : Permutation (k :: l) (key_insert k l).
Proof.
  induction l as [|x l IH]; cbn; auto. destruct (key_cmp k x); auto.
  rewrite perm_swap. constructor. auto.
Qed.
Lemma key_sort_perm l : Permutation l (key_sort l).
Proof. induction l as [|k l IH]; cbn; [constructor|]. apply perm_trans with (k :: key_sort l); [constructor; exact IH|apply key_insert_perm]. Qed.

Lemma key_insert_sorted k l :
  no_nan (k :: l) -> sorted_by key_cmp l -> sorted_by key_cmp (key_insert k l).
Proof.
  induction l as [|x l IH]; intros Hn Hs; [repeat constructor|].
  destruct (no_nan_total _ Hn) as [Hanti Htrans]. cbn [key_insert].
  pose proof Hs as Hs0. destruct Hs as [Hx Hs]. rewrite Forall_forall in Hx.
  assert (Hn' : no_nan (k :: l)) by (intros y [<-|Hy]; apply Hn; cbn; auto).
  destruct (key_cmp k x) eqn:E.
  - split; [|exact Hs0]. constructor; [congruence|].
    rewrite Forall_forall. intros y Hy. apply (Htrans k x y); cbn; auto; congruence.
  - split; [|exact Hs0]. constructor; [congruence|].
    rewrite Forall_forall. intros y Hy. apply (Htrans k x y); cbn; auto; congruence.
  - split.
    + rewrite Forall_forall. intros y Hy.
      apply (Permutation_in _ (Permutation_sym (key_insert_perm k l))) in Hy.
      destruct Hy as [<-|Hy]; [|auto]. rewrite Hanti by (cbn; auto). rewrite E. cbn. discriminate.
    + apply IH; auto.
Qed.

Lemma key_sort_sorted l : no_nan l -> sorted_by key_cmp (key_sort l).
Proof.
  induction l as [|k l IH]; cbn; intros Hn; auto. apply key_insert_sorted.
  - intros y [<-|Hy]; [apply Hn; cbn; auto|]. apply Hn. right.
    eapply Permutation_in; [apply Permutation_sym, key_sort_perm|]; auto.
  - apply IH. intros y Hy. apply Hn. cbn; auto.
Qed.

Theorem C22_new_total :
  forall t keys, no_nan keys -> exists c, channel_new_rel t keys c.
Proof.
  intros t keys Hn. exists (mkChannel t (key_sort keys)). split; auto. cbn.
  split; [apply key_sort_perm|]. intros _. apply key_sort_sorted; auto.
Qed.
Print Assumptions C22_new_total.


(** When no two keyframes share a time, the channel does not depend on the order
    in which the keyframes were given, nor on which way the (unstable) sort went. *)
Definition times_distinct (ks : list keyframe) : Prop :=
  forall i j a b, nth_error ks i = Some a -> nth_error ks j = Some b ->
    f64_key (k_time a) = f64_key (k_time b) -> i = j.

Lemma distinct_head_nodup k l : times_distinct (k :: l) -> forall y, In y l -> f64_key (k_time k) <> f64_key (k_time y).
Proof.
  intros H y Hy E. apply In_nth_error in Hy. destruct Hy as [n Hn].
  specialize (H 0 (S n) k y eq_refl Hn E). discriminate.
Qed.
Lemma distinct_tail k l : times_distinct (k :: l) -> times_distinct l.
Proof. intros H i j a b Ha Hb E. specialize (H (S i) (S j) a b Ha Hb E). lia. Qed.

Lemma distinct_NoDup ks : times_distinct ks <-> NoDup (map (fun k => f64_key (k_time k)) ks).
Proof.
  split.
  - induction ks as [|k l IH]; intros H; constructor.
    + intros Hin. apply in_map_iff in Hin. destruct Hin as [y [E Hy]].
      apply (distinct_head_nodup _ _ H y Hy). auto.
    + apply IH. eapply distinct_tail; eauto.
  - intros H i j a b Ha Hb E. rewrite NoDup_nth_error in H. apply H.
    + rewrite map_length. apply nth_error_Some. congruence.
    + rewrite !nth_error_map, Ha, Hb. cbn. congruence.
Qed.
Lemma distinct_perm a b : Permutation a b -> times_distinct a -> times_distinct b.
Proof.
  intros Hp. rewrite !distinct_NoDup. apply Permutation_NoDup. apply Permutation_map. auto.
Qed.

Lemma sorted_unique a : forall b,
  times_distinct a -> time_sorted a -> time_sorted b -> Permutation a b -> a = b.
Proof.
  induction a as [|x a IH]; intros b Hd Ha Hb Hp.
  { apply Permutation_nil in Hp. auto. }
  destruct b as [|y b]. { apply Permutation_sym, Permutation_nil in Hp. discriminate. }
  assert (x = y).
  { assert (Hx : In x (y :: b)) by (eapply Permutation_in; [exact Hp|left; auto]).
    assert (Hy : In y (x :: a)) by (eapply Permutation_in; [apply Permutation_sym; exact Hp|left; auto]).
    destruct Hx as [?|Hx]; auto. destruct Hy as [?|Hy]; auto.
    pose proof (distinct_head_nodup _ _ Hd y Hy) as Hne. exfalso. apply Hne.
    apply In_nth_error in Hx, Hy. destruct Hx as [i Hx], Hy as [j Hy].
    destruct (Ha 0 (S j) x y ltac:(lia) eq_refl Hy) as [p [q [E1 [E2 L1]]]].
    destruct (Hb 0 (S i) y x ltac:(lia) eq_refl Hx) as [p' [q' [E3 [E4 L2]]]].
    rewrite E1 in E4. rewrite E2 in E3. injection E4 as <-. injection E3 as <-.
    rewrite E1, E2. f_equal. lia. }
  subst y. f_equal. apply IH.
  - eapply distinct_tail; eauto.
  - intros i j u v Hij Hu Hv. apply (Ha (S i) (S j)); auto; lia.
  - intros i j u v Hij Hu Hv. apply (Hb (S i) (S j)); auto; lia.
  - eapply Permutation_cons_inv; eauto.
Qed.

Theorem C22_new_order_irrelevant :
  forall t ks1 ks2 c1 c2,
    no_nan ks1 -> times_distinct ks1 -> Permutation ks1 ks2 ->
    channel_new_rel t ks1 c1 -> channel_new_rel t ks2 c2 -> c1 = c2.
Proof.
  intros t ks1 ks2 c1 c2 Hn Hd Hp H1 H2.
  destruct (C22_new_loses_nothing _ _ _ H1) as [T1 P1]. destruct (C22_new_loses_nothing _ _ _ H2) as [T2 P2].
  assert (Hn2 : no_nan ks2).
  { intros k Hk. apply Hn. eapply Permutation_in; [apply Permutation_sym; exact Hp|auto]. }
  destruct c1 as [t1 l1], c2 as [t2 l2]. cbn in *. subst. f_equal. apply sorted_unique.
  - eapply distinct_perm; [|exact Hd]. auto.
  - exact (C22_new_sorts _ _ _ H1 Hn).
  - exact (C22_new_sorts _ _ _ H2 Hn2).
  - rewrite <- P1, <- P2. auto.
Qed.
Print Assumptions C22_new_order_irrelevant.

(** Building a channel from the keyframes of a channel built that way gives the
    same sequence of keyframes back. *)
Theorem C22_new_idempotent :
  forall t ks c c', no_nan ks -> times_distinct ks ->
    channel_new_rel t ks c -> channel_new_rel t (keyframes c) c' -> c' = c.
Proof.
  intros t ks c c' Hn Hd H1 H2. symmetry.
  apply (C22_new_order_irrelevant t ks (keyframes c) c c' Hn Hd); auto.
  apply (C22_new_loses_nothing _ _ _ H1).
Qed.
Print Assumptions C22_new_idempotent.

(** ** C23 *)

(** Histories that never use [keyframes_mut] and create channels only with
    [Channel::new] on NaN-free keyframes keep every channel sorted. *)
Definition sorted_op (op : bop) : Prop :=
  match op with
  | BCreate _ _ cs => Forall (fun c => exists keys, no_nan keys /\ channel_new_rel (ch_type c) keys c) cs
  | BSetKeys _ _ _ => False
  | _ => True
  end.

Definition all_sorted (b : baseline) : Prop :=
  forall t h c, channel_get b t h = Ok c -> time_sorted (ch_keys c).

Lemma bstep_sorted b op r b' :
  binv b -> bop_ok b op -> bstep b op = (r, b') -> r <> Panic -> sorted_op op -> all_sorted b -> all_sorted b'.
Proof.
  intros Hb Hok Hs Hnp Hso Hall t h c. rewrite channel_get_ok. intros Hc.
  assert (Hold : forall k, tm_look (b_channels b) t h = Some k -> time_sorted (ch_keys k)).
  { intros k Hk. apply (Hall t h k). apply channel_get_ok. auto. }
  destruct op; cbn [bstep] in Hs; unfold ret_map in Hs.
  - destruct (register_spec b C Hb) as [[_ E]|[_ [cs [h' [_ E]]]]]; rewrite E in Hs; injection Hs as <- <-; auto.
  - destruct (unregister_spec b C h0 ord Hb Hok) as [[_ E]|[cd [_ [[_ E]|[_ [[b1 [E Hu]]|[_ E]]]]]]];
      rewrite E in Hs; cbn in Hs; injection Hs as <- <-; auto; [|congruence].
    destruct Hu as [cd2 [os' [_ [_ [_ [_ [_ [_ [_ [_ [Ec _]]]]]]]]]]]. rewrite Ec in Hc. auto.
  - destruct (create_spec b c0 vs cs Hb) as [[_ [e E]]|[_ [oh [ob [b1 [E Hcr]]]]]]; rewrite E in Hs;
      injection Hs as <- <-; auto.
    destruct (is_only _ _ _ _ _ (cr_ch _ _ _ _ _ _ _ Hcr) _ _ _ Hc) as [Ho|[i [Hi _]]]; auto.
    cbn in Hso. rewrite Forall_forall in Hso. destruct (Hso c (nth_error_In _ _ Hi)) as [keys [Hn Hr]].
    eapply C22_new_sorts; eauto.
  - rewrite object_remove_spec in Hs by (apply bi_obj; auto). cbn in Hs. injection Hs as _ <-. auto.
  - destruct (state_set_spec b h0 v Hb) as [[_ [e E]]|[_ [m' [E _]]]]; rewrite E in Hs; injection Hs as <- <-; auto.
  - destruct Hso.
  - destruct (set_warp_spec b o w Hb) as [[_ E]|[ob [os [_ [E _]]]]]; rewrite E in Hs; injection Hs as <- <-; auto.
Qed.

Theorem C23_channels_stay_sorted_partial :
  forall k ops b, bsteps (baseline_new k) ops b -> Forall sorted_op ops ->
    forall t h c, channel_get b t h = Ok c -> time_sorted (ch_keys c).
Proof.
  intros k ops b Hs Hf. enough (all_sorted b) by auto.
  assert (H0 : all_sorted (baseline_new k)) by (intros t h c H; discriminate).
  assert (Hb0 : binv (baseline_new k)) by apply binv_new.
  revert H0 Hb0 Hf Hs. generalize (baseline_new k) as b0. intros b0 H0 Hb0 Hf Hs. revert H0 Hb0.
  clear - Hs Hf. revert Hf. induction Hs as [bb|bb op r b1 ops b2 Hok Hst Hnp Hs IH]; intros Hf H0 Hb0; auto.
  inversion Hf; subst. apply IH; auto.
  - eapply bstep_sorted; eauto.
  - eapply bstep_binv; eauto.
Qed.
Print Assumptions C23_channels_stay_sorted_partial.

(** Refuted in general: [keyframes_mut] lets a client store any order. *)
Definition unsortedK : list keyframe := [mkKey (PPrim (VU8 1)) 4607182418800017408; mkKey (PPrim (VU8 0)) 0].
Lemma unsortedK_unsorted : ~ time_sorted unsortedK.
Proof.
  intros H. destruct (H 0 1 _ _ (Nat.lt_0_1) eq_refl eq_refl) as [x [y [Hx [Hy Hle]]]].
  vm_compute in Hx, Hy. injection Hx as <-. injection Hy as <-. vm_compute in Hle. congruence.
Qed.

Theorem C23_keyframes_mut_unsorts_refuted :
  exists b t h c, reach b /\ channel_get b t h = Ok c /\ ~ time_sorted (ch_keys c).
Proof.
  set (C := mkCty (mkCid Coq.Strings.String.EmptyString (0%N, 0%N, 0%N)) [] [] [TPrim TU8] []).
  set (h := mkIndex 0 0%N).
  set (ops := [BRegister C; BCreate (mkCinst C h) [] [mkChannel (TPrim TU8) []]; BSetKeys (TPrim TU8) h unsortedK]).
  assert (Hs : exists b, bsteps (baseline_new KMain) ops b /\ channel_get b (TPrim TU8) h = Ok (mkChannel (TPrim TU8) unsortedK)).
  { eexists. split.
    - econstructor; [exact I|vm_compute; reflexivity|discriminate|].
      econstructor; [repeat constructor|vm_compute; reflexivity|discriminate|].
      econstructor; [repeat constructor|vm_compute; reflexivity|discriminate|].
      constructor.
    - vm_compute. reflexivity. }
  destruct Hs as [b [Hs Hg]]. exists b, (TPrim TU8), h, (mkChannel (TPrim TU8) unsortedK).
  split; [exists KMain, ops; auto|]. split; auto. exact unsortedK_unsorted.
Qed.
Print Assumptions C23_keyframes_mut_unsorts_refuted.

(** And with one NaN time [Channel::new] itself may return an unsorted channel:
    the comparator is not a total preorder, so the sort promises nothing but a
    permutation. *)
Theorem C23_nan_new_unsorted_refuted :
  exists t keys c, channel_new_rel t keys c /\ ~ time_sorted (filter (fun k => match f64_key (k_time k) with Some _ => true | None => false end) (ch_keys c)).
Proof.
  set (nan := mkKey (PPrim (VU8 2)) 9221120237041090560).
  set (ks := [mkKey (PPrim (VU8 1)) 4607182418800017408; nan; mkKey (PPrim (VU8 0)) 0]).
  exists (TPrim TU8), ks, (mkChannel (TPrim TU8) ks). split.
  - split; auto. split; auto. intros [Hanti Htr]. exfalso.
    apply (Htr (mkKey (PPrim (VU8 1)) 4607182418800017408) nan (mkKey (PPrim (VU8 0)) 0)); cbn; auto;
      vm_compute; congruence.
  - exact unsortedK_unsorted.
Qed.
Print Assumptions C23_nan_new_unsorted_refuted.

Example channel_example :
  no_nan unsortedK /\ key_sort unsortedK = rev unsortedK /\ time_sorted (rev unsortedK).
Proof.
  assert (Hn : no_nan unsortedK) by (intros k [<-|[<-|[]]]; vm_compute; discriminate).
  split; auto. split; [reflexivity|].
  apply (C22_new_sorts (TPrim TU8) unsortedK (mkChannel (TPrim TU8) (rev unsortedK))); auto.
  split; auto. cbn. split; [apply (key_sort_perm unsortedK)|]. intros _. apply (key_sort_sorted unsortedK Hn).
Qed.

(** When a NaN time is present: the comparator is still antisymmetric, and the
    sort is guaranteed an order exactly when there is no NaN or all other times
    are equal. *)
Theorem C22_comparator_antisymmetric : forall a b, key_cmp a b = CompOpp (key_cmp b a).
Proof.
  intros a b. unfold key_cmp, f64_partial_cmp.
  destruct (f64_key (k_time a)), (f64_key (k_time b)); auto. apply Z.compare_antisym.
Qed.
Print Assumptions C22_comparator_antisymmetric.

Theorem C22_sort_guarantee_exact :
  forall ks, total_preorder key_cmp ks <->
    no_nan ks \/
    forall a b x y, In a ks -> In b ks -> f64_key (k_time a) = Some x -> f64_key (k_time b) = Some y -> x = y.
Proof.
  intros ks. split.
  - intros [_ Ht]. destruct (Exists_dec (fun k => f64_key (k_time k) = None) ks) as [He|Hn].
    { intros k. destruct (f64_key (k_time k)); [right; discriminate|left; auto]. }
    + right. apply Exists_exists in He. destruct He as [n [Hin Hnan]].
      assert (G : forall a b x y, In a ks -> In b ks -> f64_key (k_time a) = Some x -> f64_key (k_time b) = Some y -> (x <= y)%Z).
      { intros a b x y Ha Hb Ea Eb. specialize (Ht a n b Ha Hin Hb). unfold key_cmp, f64_partial_cmp in Ht.
        rewrite Ea, Eb, Hnan in Ht. assert (H : (x ?= y)%Z <> Gt) by (apply Ht; discriminate).
        rewrite Z.compare_gt_iff in H. lia. }
      intros a b x y Ha Hb Ea Eb. pose proof (G a b x y Ha Hb Ea Eb). pose proof (G b a y x Hb Ha Eb Ea). lia.
    + left. intros k Hk E. apply Hn. apply Exists_exists. eauto.
  - intros [H|H]; [apply no_nan_total; auto|]. split; [intros a b _ _; apply C22_comparator_antisymmetric|].
    intros a b c Ha Hb Hc _ _. unfold key_cmp, f64_partial_cmp.
    destruct (f64_key (k_time a)) as [x|] eqn:Ea, (f64_key (k_time c)) as [y|] eqn:Ec; try discriminate.
    rewrite (H a c x y Ha Hc Ea Ec), Z.compare_refl. discriminate.
Qed.
Print Assumptions C22_sort_guarantee_exact.
